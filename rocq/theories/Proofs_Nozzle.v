(* Proofs about the nozzle components. *)
From Verif Require Import Lib_R Lib_Loop Model_Nozzle.
Open Scope string_scope. Open Scope list_scope. Open Scope R_scope.

Lemma prb_ok : comp_ok pr_bal (fun _ => True).
Proof. cok pr_bal ltac:(unfold prb_resid, prb_linearize in *; cbv zeta in * ) ltac:(auto). Qed.
Lemma pc_ok : comp_ok pressure_calcs (fun e => e (V "PR") <> 0).
Proof. cok pressure_calcs ltac:(unfold pc_compute, pc_partials in *; cbv zeta in * ) ltac:(auto). Qed.
Lemma gc_nz : g_c <> 0. Proof. unfold g_c. lra. Qed.
Lemma perf_ok lc : comp_ok (nozzle_perf lc) (fun _ => True).
Proof.
  assert (G := gc_nz). destruct lc.
  - cok nozzle_perf ltac:(unfold pf_compute, pf_partials in *; cbv zeta in * ) ltac:(auto).
  - cok nozzle_perf ltac:(unfold pf_compute, pf_partials in *; cbv zeta in * ) ltac:(auto).
Qed.

(* ---- mux ---- *)
Lemma stat_inj a p b q : stat a p = stat b q -> a = b /\ p = q.
Proof. unfold stat. intros H. injection H. intros H1 H2. auto. Qed.
Definition throat_pre nt e := match nt with CD => "MN" | _ => mux_prefix e end.
Definition exit_pre nt e := match nt with CV => mux_prefix e | _ => "Ps" end.
Lemma S_flow : ~ In "S" flow_out.
Proof. cbn [flow_out In]. intuition discriminate. Qed.

Section Mux.
Variables (nt : nozz) (fl : string).
Hypothesis Hfl : fl <> "Throat".
Lemma st_ne1 p q : stat fl p <> stat "Throat" q.
Proof. intros H. apply stat_inj in H. tauto. Qed.
Lemma st_ne2 p q : stat "Throat" p <> stat fl q.
Proof. intros H. apply stat_inj in H. destruct H; congruence. Qed.
Lemma st_ne3 a p q : p <> q -> stat a p <> stat a q.
Proof. intros Hn H. apply stat_inj in H. tauto. Qed.
Ltac sne := solve [ apply st_ne1 | apply st_ne2 | apply st_ne3; auto; congruence | discriminate ].
Ltac ur := repeat first [ rewrite upd_eq | rewrite upd_neq by sne ].

Lemma mux_throat p e old : In p flow_out -> mux_compute nt fl e old (stat "Throat" p) = e (B (throat_pre nt e) p).
Proof.
  intros Hp. assert (p <> "S") by (intros ->; exact (S_flow Hp)). unfold mux_compute. cbv zeta. ur. unfold throat_pre. destruct nt.
  - apply (fold_hit _ (fun o => o (stat "Throat" p)) string_dec) with (b0 := p); auto; intros; ur; auto.
  - apply (fold_hit _ (fun o => o (stat "Throat" p)) string_dec) with (b0 := p); auto; intros; ur; auto.
  - apply (fold_hit _ (fun o => o (stat "Throat" p)) string_dec) with (b0 := p); auto; intros; ur; auto.
Qed.
Lemma mux_exit p e old : In p flow_out -> mux_compute nt fl e old (stat fl p) = e (B (exit_pre nt e) p).
Proof.
  intros Hp. assert (p <> "S") by (intros ->; exact (S_flow Hp)). unfold mux_compute. cbv zeta. ur. unfold exit_pre. destruct nt.
  - apply (fold_hit _ (fun o => o (stat fl p)) string_dec) with (b0 := p); auto; intros; ur; auto.
  - apply (fold_hit _ (fun o => o (stat fl p)) string_dec) with (b0 := p); auto; intros; ur; auto.
  - apply (fold_hit _ (fun o => o (stat fl p)) string_dec) with (b0 := p); auto; intros; ur; auto.
Qed.
Lemma mux_S1 e old : mux_compute nt fl e old (stat "Throat" "S") = e (V "S").
Proof. unfold mux_compute. cbv zeta. ur. reflexivity. Qed.
Lemma mux_S2 e old : mux_compute nt fl e old (stat fl "S") = e (V "S").
Proof. unfold mux_compute. cbv zeta. ur. reflexivity. Qed.
Lemma mux_choked e old : mux_compute nt fl e old (V "choked") = old (V "choked").
Proof.
  unfold mux_compute. cbv zeta. ur. destruct nt;
  apply (fold_skip _ (fun o : env => o (V "choked"))); intros; ur; reflexivity.
Qed.

(* entries of the Jacobian *)
Lemma mux_other_ne e : mux_other e <> mux_prefix e.
Proof. unfold mux_other, mux_prefix. destruct (Rlt_dec _ _); discriminate. Qed.
Lemma mux_pre_case e x : x = "Ps" \/ x = "MN" -> x = mux_prefix e \/ x = mux_other e.
Proof. unfold mux_other, mux_prefix. destruct (Rlt_dec _ _); tauto. Qed.
Ltac jr := repeat first [ rewrite jset_eq | rewrite jset_neq_o by sne
  | rewrite jset_neq_i by (first [discriminate | (let H := fresh in intros H; injection H; intros; congruence)]) ].
Lemma jm_S1 e J : mux_partials nt fl e J (stat "Throat" "S") (V "S") = 1.
Proof. unfold mux_partials. cbv zeta. jr. reflexivity. Qed.
Lemma jm_S2 e J : mux_partials nt fl e J (stat fl "S") (V "S") = 1.
Proof. unfold mux_partials. cbv zeta. jr. reflexivity. Qed.
(* entry (output p, input q of stream x) is written only when p = q *)
Lemma jm_skip a p x q e J : p <> q -> mux_partials nt fl e J (stat a p) (B x q) = J (stat a p) (B x q).
Proof.
  intros Hpq. unfold mux_partials. cbv zeta. do 2 (rewrite jset_neq_i by discriminate).
  assert (K : forall b y r v J0, jset J0 (stat b r) (B y r) v (stat a p) (B x q) = J0 (stat a p) (B x q)).
  { intros. apply jset_undeclared. intros H1 H2. apply stat_inj in H1. injection H2. intros. destruct H1. congruence. }
  destruct nt; apply (fold_skip _ (fun J0 : jac => J0 (stat a p) (B x q))); intros; rewrite !K; reflexivity.
Qed.
Lemma jm_skipV a p v e J : (p <> "S" \/ v <> "S") -> mux_partials nt fl e J (stat a p) (V v) = J (stat a p) (V v).
Proof.
  intros Hpq. unfold mux_partials. cbv zeta.
  assert (K1 : forall b w J0, jset J0 (stat b "S") (V "S") w (stat a p) (V v) = J0 (stat a p) (V v)).
  { intros. apply jset_undeclared. intros H1 H2. apply stat_inj in H1. injection H2. intros. destruct H1. destruct Hpq; congruence. }
  rewrite !K1.
  assert (K : forall o y r w J0, jset J0 o (B y r) w (stat a p) (V v) = J0 (stat a p) (V v)).
  { intros. apply jset_neq_i. discriminate. }
  destruct nt; apply (fold_skip _ (fun J0 : jac => J0 (stat a p) (V v))); intros; rewrite !K; reflexivity.
Qed.
Lemma jm_choked i e J : mux_partials nt fl e J (V "choked") i = J (V "choked") i.
Proof.
  unfold mux_partials. cbv zeta. do 2 (rewrite jset_neq_o by discriminate). 
  destruct nt; apply (fold_skip _ (fun J0 : jac => J0 (V "choked") i)); intros; rewrite !jset_neq_o by discriminate; reflexivity.
Qed.
Ltac hit p := apply (fold_hit _ (fun J0 : jac => J0 (stat _ p) (B _ p)) string_dec) with (b0 := p); auto;
  [ intros ? ? ? ?; repeat rewrite jset_neq_o by sne; reflexivity | intros ?; jr; reflexivity ].
Lemma jm_throat_sel p e J : In p flow_out -> mux_partials nt fl e J (stat "Throat" p) (B (throat_pre nt e) p) = 1.
Proof.
  intros Hp. assert (p <> "S") by (intros ->; exact (S_flow Hp)). assert (O := mux_other_ne e).
  unfold mux_partials, throat_pre. cbv zeta. jr. destruct nt; hit p.
Qed.
Lemma jm_throat_other p e J : nt <> CD -> In p flow_out -> mux_partials nt fl e J (stat "Throat" p) (B (mux_other e) p) = 0.
Proof.
  intros Hn Hp. assert (p <> "S") by (intros ->; exact (S_flow Hp)). assert (O := mux_other_ne e).
  unfold mux_partials. cbv zeta. jr. destruct nt; [|congruence|]; hit p.
Qed.
Lemma jm_throat_cd p e J : nt = CD -> In p flow_out -> mux_partials nt fl e J (stat "Throat" p) (B "Ps" p) = J (stat "Throat" p) (B "Ps" p).
Proof.
  intros Hn Hp. assert (p <> "S") by (intros ->; exact (S_flow Hp)).
  unfold mux_partials. cbv zeta. jr. rewrite Hn. apply (fold_skip _ (fun J0 : jac => J0 (stat "Throat" p) (B "Ps" p))). 
  intros; jr. reflexivity.
Qed.
Lemma jm_exit_sel p e J : In p flow_out -> mux_partials nt fl e J (stat fl p) (B (exit_pre nt e) p) = 1.
Proof.
  intros Hp. assert (p <> "S") by (intros ->; exact (S_flow Hp)). assert (O := mux_other_ne e).
  unfold mux_partials, exit_pre. cbv zeta. jr. destruct nt; hit p.
Qed.
Lemma jm_exit_other p e J : nt = CV -> In p flow_out -> mux_partials nt fl e J (stat fl p) (B (mux_other e) p) = 0.
Proof.
  intros Hn Hp. assert (p <> "S") by (intros ->; exact (S_flow Hp)). assert (O := mux_other_ne e).
  unfold mux_partials. cbv zeta. jr. rewrite Hn. hit p.
Qed.
Lemma jm_exit_cd p e J : nt <> CV -> In p flow_out -> mux_partials nt fl e J (stat fl p) (B "MN" p) = J (stat fl p) (B "MN" p).
Proof.
  intros Hn Hp. assert (p <> "S") by (intros ->; exact (S_flow Hp)).
  unfold mux_partials. cbv zeta. jr. destruct nt; [congruence| |];
  apply (fold_skip _ (fun J0 : jac => J0 (stat fl p) (B "MN" p))); intros; jr; reflexivity.
Qed.

(* the selection is locally constant away from the choking boundary *)
Lemma pre_local e i : e (V "Ps_calc") <> e (B "MN" "P") ->
  exists d : posreal, forall t, Rabs (t - e i) < d -> mux_prefix (upd e i t) = mux_prefix e.
Proof.
  intros Hne. unfold mux_prefix.
  destruct (var_eq_dec i (V "Ps_calc")) as [->|N1]; [|destruct (var_eq_dec i (B "MN" "P")) as [->|N2]].
  - assert (E : forall t, upd e (V "Ps_calc") t (B "MN" "P") = e (B "MN" "P")) by (intros; vsimp; reflexivity).
    destruct (Rlt_dec (e (V "Ps_calc")) (e (B "MN" "P"))) as [L|L].
    + destruct (near_lt _ _ L) as [d Hd]. exists d. intros t Ht. rewrite upd_eq, E. destruct (Rlt_dec _ _); auto. exfalso; apply n; auto.
    + assert (L' : e (B "MN" "P") < e (V "Ps_calc")) by lra. destruct (near_gt _ _ L') as [d Hd]. exists d. intros t Ht. rewrite upd_eq, E.
      destruct (Rlt_dec _ _); auto. specialize (Hd t Ht). lra.
  - assert (E : forall t, upd e (B "MN" "P") t (V "Ps_calc") = e (V "Ps_calc")) by (intros; vsimp; reflexivity).
    destruct (Rlt_dec (e (V "Ps_calc")) (e (B "MN" "P"))) as [L|L].
    + destruct (near_gt _ _ L) as [d Hd]. exists d. intros t Ht. rewrite upd_eq, E. destruct (Rlt_dec _ _); auto. exfalso; apply n; auto.
    + assert (L' : e (B "MN" "P") < e (V "Ps_calc")) by lra. destruct (near_lt _ _ L') as [d Hd]. exists d. intros t Ht. rewrite upd_eq, E.
      destruct (Rlt_dec _ _); auto. specialize (Hd t Ht). lra.
  - exists (mkposreal 1 Rlt_0_1). intros t _. rewrite !upd_neq by auto. reflexivity.
Qed.
Definition mux_dom (e : env) : Prop := nt = CD \/ e (V "Ps_calc") <> e (B "MN" "P").
Lemma tp_local e i : mux_dom e -> exists d : posreal, forall t, Rabs (t - e i) < d -> throat_pre nt (upd e i t) = throat_pre nt e.
Proof.
  intros [H|H]. - rewrite H. exists (mkposreal 1 Rlt_0_1). reflexivity.
  - destruct (pre_local e i H) as [d Hd]. exists d. intros t Ht. unfold throat_pre. destruct nt; auto.
Qed.
Lemma ep_local e i : mux_dom e -> exists d : posreal, forall t, Rabs (t - e i) < d -> exit_pre nt (upd e i t) = exit_pre nt e.
Proof.
  intros [H|H]. - rewrite H. exists (mkposreal 1 Rlt_0_1). reflexivity.
  - destruct (pre_local e i H) as [d Hd]. exists d. intros t Ht. unfold exit_pre. destruct nt; auto.
Qed.
Lemma d_copy_same (e : env) i : derivable_pt_lim (fun t => upd e i t i) (e i) 1.
Proof. apply (dl_ext _ (fun t => t)); [intros t; apply upd_eq|]. apply derivable_pt_lim_id. Qed.
Lemma d_copy_other (e : env) i x : i <> x -> derivable_pt_lim (fun t => upd e i t x) (e i) 0.
Proof. intros H. apply (dl_ext _ (fun _ => e x)); [intros t; apply upd_neq; auto|]. apply dl_const. Qed.
Lemma d_throat p e old i l : mux_dom e -> In p flow_out -> derivable_pt_lim (fun t => upd e i t (B (throat_pre nt e) p)) (e i) l ->
  derivable_pt_lim (fun t => mux_compute nt fl (upd e i t) old (stat "Throat" p)) (e i) l.
Proof.
  intros Hd Hp D. eapply dl_local; [|exact D]. destruct (tp_local e i Hd) as [d E]. exists d. intros t Ht.
  rewrite mux_throat by auto. rewrite E; auto.
Qed.
Lemma d_exit p e old i l : mux_dom e -> In p flow_out -> derivable_pt_lim (fun t => upd e i t (B (exit_pre nt e) p)) (e i) l ->
  derivable_pt_lim (fun t => mux_compute nt fl (upd e i t) old (stat fl p)) (e i) l.
Proof.
  intros Hd Hp D. eapply dl_local; [|exact D]. destruct (ep_local e i Hd) as [d E]. exists d. intros t Ht.
  rewrite mux_exit by auto. rewrite E; auto.
Qed.
Lemma mux_zero_decls o i : jinit (decls (mux nt fl)) o i = 0.
Proof.
  apply jinit_zero. cbn [mux decls]. intros d [<-|H]; auto. apply in_flat_map in H. destruct H as [p [_ [<-|[]]]]. reflexivity.
Qed.
Definition entry (e old : env) (o i : var) : Prop := 
    (exists v, (forall J, mux_partials nt fl e J o i = v) /\
       derivable_pt_lim (fun t => mux_compute nt fl (upd e i t) old o) (e i) v) \/
    ((forall e J, mux_partials nt fl e J o i = J o i) /\
       derivable_pt_lim (fun t => mux_compute nt fl (upd e i t) old o) (e i) 0).
Lemma entry_throat e old p i : mux_dom e -> In p flow_out -> In i (ins (mux nt fl)) -> entry e old (stat "Throat" p) i.
Proof.
  intros Hd Hp Hi. assert (HpS : p <> "S") by (intros ->; exact (S_flow Hp)).
  assert (C : (exists v, i = V v) \/ exists q x, i = B x q /\ (x = "Ps" \/ x = "MN")).
  { cbn [mux ins] in Hi. inflat Hi; eauto 6. }
  destruct C as [[v ->]|[q [x [-> Hx]]]].
  - right. split; [intros; apply jm_skipV; auto|]. apply d_throat; auto. apply d_copy_other. discriminate.
  - destruct (string_dec p q) as [<-|Hpq].
    + destruct (string_dec x (throat_pre nt e)) as [->|Hne].
      * left. exists 1. split; [intros; apply jm_throat_sel; auto|]. apply d_throat; auto. apply d_copy_same.
      * assert (D0 : derivable_pt_lim (fun t => mux_compute nt fl (upd e (B x p) t) old (stat "Throat" p)) (e (B x p)) 0).
        { apply d_throat; auto. apply d_copy_other. congruence. }
        assert (Hc : nt = CD \/ nt <> CD) by (destruct nt; auto; right; discriminate). destruct Hc as [Hc|Hc].
        -- right. split; auto. intros. replace x with "Ps". apply jm_throat_cd; auto.
           destruct Hx; auto. exfalso. apply Hne. unfold throat_pre. rewrite Hc. auto.
        -- left. exists 0. split; auto. intros. replace x with (mux_other e). apply jm_throat_other; auto.
           destruct (mux_pre_case e x Hx); auto. exfalso. apply Hne. unfold throat_pre. destruct nt; auto. congruence.
    + right. split; [intros; apply jm_skip; auto|]. apply d_throat; auto. apply d_copy_other. congruence.
Qed.
Lemma entry_exit e old p i : mux_dom e -> In p flow_out -> In i (ins (mux nt fl)) -> entry e old (stat fl p) i.
Proof.
  intros Hd Hp Hi. assert (HpS : p <> "S") by (intros ->; exact (S_flow Hp)).
  assert (C : (exists v, i = V v) \/ exists q x, i = B x q /\ (x = "Ps" \/ x = "MN")).
  { cbn [mux ins] in Hi. inflat Hi; eauto 6. }
  destruct C as [[v ->]|[q [x [-> Hx]]]].
  - right. split; [intros; apply jm_skipV; auto|]. apply d_exit; auto. apply d_copy_other. discriminate.
  - destruct (string_dec p q) as [<-|Hpq].
    + destruct (string_dec x (exit_pre nt e)) as [->|Hne].
      * left. exists 1. split; [intros; apply jm_exit_sel; auto|]. apply d_exit; auto. apply d_copy_same.
      * assert (D0 : derivable_pt_lim (fun t => mux_compute nt fl (upd e (B x p) t) old (stat fl p)) (e (B x p)) 0).
        { apply d_exit; auto. apply d_copy_other. congruence. }
        assert (Hc : nt = CV \/ nt <> CV) by (destruct nt; auto; right; discriminate). destruct Hc as [Hc|Hc].
        -- left. exists 0. split; auto. intros. replace x with (mux_other e). apply jm_exit_other; auto.
           destruct (mux_pre_case e x Hx); auto. exfalso. apply Hne. unfold exit_pre. rewrite Hc. auto.
        -- right. split; auto. intros. replace x with "MN". apply jm_exit_cd; auto.
           destruct Hx; auto. exfalso. apply Hne. unfold exit_pre. destruct nt; auto. congruence.
    + right. split; [intros; apply jm_skip; auto|]. apply d_exit; auto. apply d_copy_other. congruence.
Qed.
Lemma entry_S a e old i : a = "Throat" \/ a = fl -> In i (ins (mux nt fl)) -> entry e old (stat a "S") i.
Proof.
  intros Ha Hi.
  assert (EC : forall e', mux_compute nt fl e' old (stat a "S") = e' (V "S")).
  { intros. destruct Ha as [->| ->]; [apply mux_S1|apply mux_S2]. }
  assert (C : (exists v, i = V v) \/ exists q x, i = B x q /\ In q flow_out).
  { cbn [mux ins] in Hi. inflat Hi; eauto 6. }
  assert (D : forall l, derivable_pt_lim (fun t => upd e i t (V "S")) (e i) l ->
    derivable_pt_lim (fun t => mux_compute nt fl (upd e i t) old (stat a "S")) (e i) l).
  { intros l Hl. apply (dl_ext _ (fun t => upd e i t (V "S"))); [intros t; apply EC|exact Hl]. }
  destruct C as [[v ->]|[q [x [-> Hq]]]].
  - destruct (string_dec v "S") as [->|Hv].
    + left. exists 1. split; [intros; destruct Ha as [->| ->]; [apply jm_S1|apply jm_S2]|]. apply D. apply d_copy_same.
    + right. split; [intros; apply jm_skipV; auto|]. apply D. apply d_copy_other. congruence.
  - right. split. { intros. apply jm_skip. intros <-. exact (S_flow Hq). } apply D. apply d_copy_other. discriminate.
Qed.
Lemma mux_jac : jac_exact (mux nt fl) mux_dom.
Proof.
  apply jac_exact_intro. intros e old o i Hd Ho Hi.
  cut (entry e old o i). { unfold entry. rewrite mux_zero_decls. cbn [mux compute partials]. auto. }
  cbn [mux outs] in Ho. inflat Ho.
  - right. split; [intros; apply jm_choked|]. apply (dl_ext _ (fun _ => old (V "choked"))); [intros t; apply mux_choked|]. apply dl_const.
  - apply entry_S; auto.
  - apply entry_S; auto.
  - apply entry_throat; auto.
  - apply entry_exit; auto.
Qed.
Lemma mux_declared : jac_declared (mux nt fl).
Proof.
  intros e J o i Hn. cbn [mux decls partials] in *.
  assert (N0 : forall a, a = "Throat" \/ a = fl -> stat a "S" = o -> V "S" = i -> False).
  { intros a Ha <- <-. apply Hn. exists [stat "Throat" "S"; stat fl "S"], [V "S"], 0. cbn [In]. destruct Ha as [->| ->]; tauto. }
  assert (N1 : forall a x p, a = "Throat" \/ a = fl -> x = "Ps" \/ x = "MN" -> In p flow_out -> stat a p = o -> B x p = i -> False).
  { intros a x p Ha Hx Hp <- <-. apply Hn. exists [stat "Throat" p; stat fl p], [B "Ps" p; B "MN" p], 0. split.
    - right. apply in_flat_map. exists p. cbn [In]. tauto.
    - cbn [In]. destruct Ha as [->| ->], Hx as [->| ->]; tauto. }
  assert (P1 : mux_prefix e = "Ps" \/ mux_prefix e = "MN") by (unfold mux_prefix; destruct (Rlt_dec _ _); auto).
  assert (P2 : mux_other e = "Ps" \/ mux_other e = "MN") by (unfold mux_other; destruct (Rlt_dec _ _); auto).
  unfold mux_partials. cbv zeta. do 2 rewrite (jset_undeclared _ _ (V "S")) by (apply N0; auto).
  destruct nt; apply (fold_skip _ (fun J0 : jac => J0 o i)); intros p J0 Hp;
    repeat (rewrite jset_undeclared by (apply N1; auto)); reflexivity.
Qed.
End Mux.
