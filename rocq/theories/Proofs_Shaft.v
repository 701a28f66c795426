From Verif Require Import Lib_R Model_Shaft.
Open Scope string_scope. Open Scope list_scope. Open Scope R_scope.

Lemma gearbox_ok design : comp_ok (gearbox design) (fun e => design = true -> e (V "N_in") <> 0).
Proof.
  destruct design; cok gearbox ltac:(cbv beta zeta delta [gb_resid gb_partials] iota) ltac:(repeat split; auto).
Qed.

(* ---- shaft ---- *)
Lemma sh_convert_pos : 0 < sh_convert.
Proof. unfold sh_convert. assert (H := PI_RGT_0). lra. Qed.

Definition pospart (x : R) : R := if Rge_dec x 0 then x else 0.
Definition negpart (x : R) : R := if Rge_dec x 0 then 0 else x.

Lemma sh_sums_eq n e : sh_sums n e =
  (lsum (fun i => pospart (e (I "trq_" i))) (ports n), lsum (fun i => negpart (e (I "trq_" i))) (ports n)).
Proof.
  unfold sh_sums. cbv zeta.
  assert (G : forall l a b, fold_left (fun s i => if Rge_dec (e (I "trq_" i)) 0 then (fst s + e (I "trq_" i), snd s) else (fst s, snd s + e (I "trq_" i))) l (a, b)
    = (a + lsum (fun i => pospart (e (I "trq_" i))) l, b + lsum (fun i => negpart (e (I "trq_" i))) l)).
  { induction l as [|c r IH]; intros a b; simpl; [f_equal; lra|].
    unfold pospart at 1, negpart at 1. destruct (Rge_dec (e (I "trq_" c)) 0); simpl; rewrite IH; f_equal; lra. }
  rewrite G. f_equal; lra.
Qed.

Lemma sums_scalar n e s t : sh_sums n (upd e (V s) t) = sh_sums n e.
Proof. rewrite !sh_sums_eq. f_equal; apply lsum_ext; intros; vsimp; auto. Qed.
Lemma sums_port_in n e k t : In k (ports n) ->
  fst (sh_sums n (upd e (I "trq_" k) t)) = fst (sh_sums n e) - pospart (e (I "trq_" k)) + pospart t.
Proof.
  intros Hk. rewrite !sh_sums_eq. cbn [fst].
  rewrite (lsum_upd (fun i => pospart (e (I "trq_" i))) (fun i => pospart (upd e (I "trq_" k) t (I "trq_" i))) _ k); auto.
  - vsimp. auto. - apply seq_NoDup. - intros b _ Hb. vsimp. auto.
Qed.
Lemma sums_port_out n e k t : In k (ports n) ->
  snd (sh_sums n (upd e (I "trq_" k) t)) = snd (sh_sums n e) - negpart (e (I "trq_" k)) + negpart t.
Proof.
  intros Hk. rewrite !sh_sums_eq. cbn [snd].
  rewrite (lsum_upd (fun i => negpart (e (I "trq_" i))) (fun i => negpart (upd e (I "trq_" k) t (I "trq_" i))) _ k); auto.
  - vsimp. auto. - apply seq_NoDup. - intros b _ Hb. vsimp. auto.
Qed.

Definition sh_outs : list var :=
  [V "trq_in"; V "trq_out"; V "trq_net"; V "pwr_in"; V "pwr_in_real"; V "pwr_out"; V "pwr_out_real"; V "pwr_net"].

Ltac unsh := cbv beta zeta delta [sh_compute].

Lemma sh_loop_skip n e J0 o s fl N : 
  fold_left (fun J i =>
    let x := I "trq_" i in
    if Rge_dec (e x) 0 then
      let J := jset J (V "trq_in") x 1 in
      let J := jset J (V "trq_out") x 0 in
      let J := jset J (V "trq_net") x (1 - fl) in
      let J := jset J (V "pwr_in") x (N * sh_convert) in
      let J := jset J (V "pwr_out") x 0 in
      let J := jset J (V "pwr_in_real") x (N * sh_convert * (1 - fl)) in
      let J := jset J (V "pwr_out_real") x 0 in
      jset J (V "pwr_net") x (N * sh_convert * (1 - fl))
    else if Rlt_dec (e x) 0 then
      let J := jset J (V "trq_out") x 1 in
      let J := jset J (V "trq_in") x 0 in
      let J := jset J (V "trq_net") x 1 in
      let J := jset J (V "pwr_in") x 0 in
      let J := jset J (V "pwr_out") x (N * sh_convert) in
      let J := jset J (V "pwr_in_real") x 0 in
      let J := jset J (V "pwr_out_real") x (N * sh_convert) in
      jset J (V "pwr_net") x (N * sh_convert)
    else J) (ports n) J0 o (V s) = J0 o (V s).
Proof.
  apply (fold_skip _ (fun J => J o (V s))). intros i a _. cbv zeta.
  destruct (Rge_dec (e (I "trq_" i)) 0); [|destruct (Rlt_dec (e (I "trq_" i)) 0)]; auto;
  rewrite !jset_neq_i by discriminate; auto.
Qed.


Definition sh_dom (n : nat) (e : env) : Prop :=
  e (V "Nmech") <> 0 /\ forall i, (i < n)%nat -> e (I "trq_" i) <> 0.


Lemma sh_jinit n o i : jinit (decls (shaft n)) o i = 0.
Proof.
  apply jinit_zero. intros d Hd. unfold shaft in Hd; cbn [decls] in Hd. apply in_app_or in Hd. destruct Hd as [Hd|Hd].
  - apply in_map_iff in Hd. destruct Hd as [c [<- _]]. auto.
  - inlist Hd; auto.
Qed.

Lemma near_sign x : x <> 0 -> exists d : posreal, forall t, Rabs (t - x) < d -> (t >= 0 <-> x >= 0).
Proof.
  intros H. destruct (Rlt_dec x 0) as [Hl|Hl].
  - destruct (near_lt x 0 Hl) as [d Hd]. exists d. intros t Ht. specialize (Hd t Ht). lra.
  - destruct (near_gt x 0 ltac:(lra)) as [d Hd]. exists d. intros t Ht. specialize (Hd t Ht). lra.
Qed.

Lemma sh_exact n : jac_exact (shaft n) (sh_dom n).
Proof.
  apply jac_exact_intro. intros e old o i [HN Hp] Ho Hi. rewrite sh_jinit. cbn [shaft outs ins compute partials] in *.
  assert (Hc := sh_convert_pos). assert (Hc' : sh_convert <> 0) by lra.
  unfold sh_ins in Hi. apply in_app_or in Hi. destruct Hi as [Hi|Hi].
  - inlist Ho; inlist Hi;
    (first [ left; eexists; split; [intros J; unfold sh_partials; cbv zeta; rewrite sh_loop_skip; vsimp; reflexivity|]
          | right; split; [intros e0 J; unfold sh_partials; cbv zeta; rewrite sh_loop_skip; vsimp; reflexivity|] ]);
    (eapply dl_ext; [intros t; unsh; rewrite !sums_scalar; vsimp; reflexivity|]; dfin ltac:(repeat split; auto)).
  - apply in_map_iff in Hi. destruct Hi as [k [<- Hk]].
    assert (Hnz : e (I "trq_" k) <> 0). { apply Hp. apply in_seq in Hk. lia. }
    left. destruct (near_sign _ Hnz) as [d Hd].
    inlist Ho; (eexists; split;
      [intros J; unfold sh_partials; cbv zeta;
       apply (fold_hit _ (fun J => J _ (I "trq_" k)) PeanoNat.Nat.eq_dec) with (b0 := k); [auto| |];
       [intros b a _ Hne; destruct (Rge_dec (e (I "trq_" b)) 0); [|destruct (Rlt_dec (e (I "trq_" b)) 0)]; auto;
        rewrite !jset_neq_i by congruence; auto
       |intros a; instantiate (1 := if Rge_dec (e (I "trq_" k)) 0 then _ else _);
        destruct (Rge_dec (e (I "trq_" k)) 0); [vsimp; reflexivity|];
        destruct (Rlt_dec (e (I "trq_" k)) 0); [vsimp; reflexivity|lra]]
      |]);
    (destruct (Rge_dec (e (I "trq_" k)) 0) as [G|G];
     [ eapply dl_local; [exists d; intros t Ht; unsh; rewrite ?sums_port_in, ?sums_port_out by auto; vsimp;
         unfold pospart, negpart; destruct (Rge_dec t 0) as [G'|G']; [|exfalso; apply G', Hd; auto];
         destruct (Rge_dec (e (I "trq_" k)) 0); [|contradiction]; reflexivity|]
     | eapply dl_local; [exists d; intros t Ht; unsh; rewrite ?sums_port_in, ?sums_port_out by auto; vsimp;
         unfold pospart, negpart; destruct (Rge_dec t 0) as [G'|G']; [exfalso; apply G; apply Hd in Ht; tauto|];
         destruct (Rge_dec (e (I "trq_" k)) 0); [contradiction|]; reflexivity|] ]);
    dfin ltac:(repeat split; auto).
Qed.

Lemma sh_declared n : jac_declared (shaft n).
Proof.
  intros e J o i Hn. cbn [shaft partials decls] in *.
  assert (Hd : forall j, In j (ports n) -> (In o [V "trq_in"; V "trq_out"; V "pwr_in"; V "pwr_out"] -> I "trq_" j = i -> False)).
  { intros j Hj Ho <-. apply Hn. eexists _, _, _. split; [apply in_or_app; left; apply in_map_iff; exists j; split; [reflexivity|auto]|].
    split; [auto|simpl; auto]. }
  assert (Hall : In o [V "trq_net"; V "pwr_net"; V "pwr_in"; V "pwr_out"; V "pwr_in_real"; V "pwr_out_real"] -> In i (sh_ins n) -> False).
  { intros Ho Hi. apply Hn. inlist Ho; eexists _, _, _; (split; [apply in_or_app; right|]).
    1: left; reflexivity. 1: split; [simpl; auto|auto]. 1: right; left; reflexivity. 1: split; [simpl; auto|auto]. 1,3,5,7: right; right; left; reflexivity.
    all: split; [simpl; auto|auto]; simpl; tauto. }
  assert (Hpi : forall j, In j (ports n) -> In (I "trq_" j) (sh_ins n)).
  { intros j Hj. unfold sh_ins. apply in_or_app. right. apply in_map; auto. }
  unfold sh_partials. cbv zeta. rewrite (fold_skip _ (fun J => J o i)).
  - repeat rewrite jset_undeclared; auto; intros <- <-; apply Hall; unfold sh_ins; cbn [In app]; tauto.
  - intros j a Hj. destruct (Rge_dec (e (I "trq_" j)) 0); [|destruct (Rlt_dec (e (I "trq_" j)) 0)]; auto;
    (repeat rewrite jset_undeclared; auto; intros <- <-;
     first [apply (Hd j Hj); [cbn [In]; tauto|reflexivity] | apply Hall; [cbn [In]; tauto|apply Hpi; auto]]).
Qed.

Lemma sh_writes n : writes_all (shaft n).
Proof.
  intros e e' old old' o Ho He. cbn [shaft outs ins compute] in *.
  assert (S : sh_sums n e = sh_sums n e').
  { rewrite !sh_sums_eq. f_equal; apply lsum_ext; intros j Hj; rewrite He; auto;
    unfold sh_ins; apply in_or_app; right; apply in_map; auto. }
  assert (E1 : e (V "Nmech") = e' (V "Nmech")) by (apply He; unfold sh_ins; cbn [In app]; tauto).
  assert (E2 : e (V "HPX") = e' (V "HPX")) by (apply He; unfold sh_ins; cbn [In app]; tauto).
  assert (E3 : e (V "fracLoss") = e' (V "fracLoss")) by (apply He; unfold sh_ins; cbn [In app]; tauto).
  unsh. rewrite S, E1, E2, E3. inlist Ho; vsimp; auto.
Qed.

(* ---- performance ---- *)
Lemma acc_eq x n e : acc_loop x n e = lsum (fun i => e (x i)) (ports n).
Proof. unfold acc_loop. rewrite (fold_acc _ (fun s => s) _ _ (fun i => e (x i))); [lra|auto]. Qed.
Lemma acc_other x n e y t : (forall i, x i <> y) -> acc_loop x n (upd e y t) = acc_loop x n e.
Proof. intros H. rewrite !acc_eq. apply lsum_ext. intros a _. apply upd_neq. auto. Qed.
Lemma acc_same s n e k t : In k (ports n) ->
  acc_loop (I s) n (upd e (I s k) t) = acc_loop (I s) n e - e (I s k) + t.
Proof.
  intros Hk. rewrite !acc_eq. rewrite (lsum_upd (fun i => e (I s i)) (fun i => upd e (I s k) t (I s i)) _ k).
  - now rewrite upd_eq. - apply seq_NoDup. - auto. - intros b _ Hb. apply upd_neq. congruence.
Qed.

Definition perf_loops (nn nb : nat) (v w p : R) (J : jac) : jac :=
  fold_left (fun J i =>
      let J := jset J (V "TSFC") (I "Wfuel_" i) w in
      jset J (V "PSFC") (I "Wfuel_" i) p) (ports nb)
  (fold_left (fun J i => match nb with O => J | _ => jset J (V "TSFC") (I "Fg_" i) v end) (ports nn) J).

Lemma loops_other nn nb v w p J o i : o <> V "TSFC" -> o <> V "PSFC" -> perf_loops nn nb v w p J o i = J o i.
Proof.
  intros H1 H2. unfold perf_loops. rewrite (fold_skip _ (fun J => J o i)).
  - apply (fold_skip _ (fun J => J o i)). intros. destruct nb; auto. apply jset_neq_o; auto.
  - intros b a _. cbv zeta. rewrite !jset_neq_o; auto.
Qed.
Lemma loops_scalar nn nb v w p J o s : perf_loops nn nb v w p J o (V s) = J o (V s).
Proof.
  unfold perf_loops. rewrite (fold_skip _ (fun J => J o (V s))).
  - apply (fold_skip _ (fun J => J o (V s))). intros. destruct nb; auto. apply jset_neq_i; discriminate.
  - intros b a _. cbv zeta. rewrite !jset_neq_i; auto; discriminate.
Qed.
Lemma loops_fg_TSFC nn nb v w p J k : nb <> O -> In k (ports nn) -> perf_loops nn nb v w p J (V "TSFC") (I "Fg_" k) = v.
Proof.
  intros Hn Hk. unfold perf_loops. rewrite (fold_skip _ (fun J => J (V "TSFC") (I "Fg_" k))).
  - apply (fold_hit _ (fun J => J (V "TSFC") (I "Fg_" k)) PeanoNat.Nat.eq_dec) with (b0 := k); auto.
    + intros b a _ Hb. destruct nb; auto. vsimp. auto. + intros a. destruct nb; [congruence|]. vsimp. auto.
  - intros b a _. cbv zeta. vsimp. auto.
Qed.
Lemma loops_fg_PSFC nn nb v w p J k : perf_loops nn nb v w p J (V "PSFC") (I "Fg_" k) = J (V "PSFC") (I "Fg_" k).
Proof.
  unfold perf_loops. rewrite (fold_skip _ (fun J => J (V "PSFC") (I "Fg_" k))).
  - apply (fold_skip _ (fun J => J (V "PSFC") (I "Fg_" k))). intros. destruct nb; auto.
  - intros b a _. auto.
Qed.
Lemma loops_wf_TSFC nn nb v w p J k : In k (ports nb) -> perf_loops nn nb v w p J (V "TSFC") (I "Wfuel_" k) = w.
Proof.
  intros Hk. unfold perf_loops. apply (fold_hit _ (fun J => J (V "TSFC") (I "Wfuel_" k)) PeanoNat.Nat.eq_dec) with (b0 := k); auto.
  + intros b a _ Hb. cbv zeta. vsimp. auto. + intros a. cbv zeta. vsimp. auto.
Qed.
Lemma loops_wf_PSFC nn nb v w p J k : In k (ports nb) -> perf_loops nn nb v w p J (V "PSFC") (I "Wfuel_" k) = p.
Proof.
  intros Hk. unfold perf_loops. apply (fold_hit _ (fun J => J (V "PSFC") (I "Wfuel_" k)) PeanoNat.Nat.eq_dec) with (b0 := k); auto.
  + intros b a _ Hb. cbv zeta. vsimp. auto. + intros a. cbv zeta. vsimp. auto.
Qed.

Lemma perf_partials_eq nn nb e J : perf_partials nn nb e J =
  (let wfuel := acc_loop (I "Wfuel_") nb e in
   let fn := acc_loop (I "Fg_") nn e - e (V "ram_drag") in
   let J0 := jset (jset J (V "OPR") (V "Pt3") (1 / e (V "Pt2"))) (V "OPR") (V "Pt2") (- e (V "Pt3") / e (V "Pt2") ^ 2) in
   let J1 := perf_loops nn nb (-3600 * wfuel / fn ^ 2) (3600 / fn) (3600 / e (V "power")) J0 in
   match nb with O => J1 | _ =>
     jset (jset J1 (V "TSFC") (V "ram_drag") (3600 * wfuel / fn ^ 2)) (V "PSFC") (V "power") (-3600 * wfuel / e (V "power") ^ 2) end).
Proof. reflexivity. Qed.

Lemma perf_partials_S nn nb e J : nb <> O -> perf_partials nn nb e J =
  (let wfuel := acc_loop (I "Wfuel_") nb e in
   let fn := acc_loop (I "Fg_") nn e - e (V "ram_drag") in
   let J0 := jset (jset J (V "OPR") (V "Pt3") (1 / e (V "Pt2"))) (V "OPR") (V "Pt2") (- e (V "Pt3") / e (V "Pt2") ^ 2) in
   let J1 := perf_loops nn nb (-3600 * wfuel / fn ^ 2) (3600 / fn) (3600 / e (V "power")) J0 in
     jset (jset J1 (V "TSFC") (V "ram_drag") (3600 * wfuel / fn ^ 2)) (V "PSFC") (V "power") (-3600 * wfuel / e (V "power") ^ 2)).
Proof. destruct nb; [congruence|reflexivity]. Qed.
Lemma perf_compute_S nn nb e old : nb <> O -> perf_compute nn nb e old =
  (let o := upd old (V "OPR") (e (V "Pt3") / e (V "Pt2")) in
  let Fg := acc_loop (I "Fg_") nn e in
  let Fn := Fg - e (V "ram_drag") in
  let o := upd o (V "Fn") Fn in
  let o := upd o (V "Fg") Fg in
  let Wfuel := acc_loop (I "Wfuel_") nb e in
         let o := upd o (V "Wfuel") Wfuel in
         let o := upd o (V "TSFC") (Wfuel * 3600 / (Fn + / 10 ^ 10)) in
         upd o (V "PSFC") (Wfuel * 3600 / e (V "power"))).
Proof. destruct nb; [congruence|reflexivity]. Qed.

Definition perf_dom (nn nb : nat) (e : env) : Prop :=
  e (V "Pt2") <> 0 /\ e (V "power") <> 0 /\ acc_loop (I "Fg_") nn e - e (V "ram_drag") <> 0.

Ltac pJ := first [rewrite perf_partials_S by auto | rewrite perf_partials_eq]; cbv zeta; vsimp;
  rewrite ?loops_scalar, ?loops_fg_PSFC; rewrite ?loops_other by discriminate;
  rewrite ?loops_fg_TSFC by (auto; discriminate); rewrite ?loops_wf_TSFC, ?loops_wf_PSFC by auto; vsimp.
Ltac pC := first [rewrite perf_compute_S by auto | unfold perf_compute]; cbv zeta; vsimp;
  rewrite ?(acc_other (I "Fg_")) by (intros; discriminate); rewrite ?(acc_other (I "Wfuel_")) by (intros; discriminate);
  rewrite ?acc_same by auto; vsimp.

Lemma ports_in_map s n k : In k (ports n) -> In (I s k) (map (I s) (ports n)).
Proof. apply in_map. Qed.
Lemma ports_notin s s' n k : s <> s' -> ~ In (I s k) (map (I s') (ports n)).
Proof. intros H Hi. apply in_map_iff in Hi. destruct Hi as [x [E _]]. congruence. Qed.
Lemma scalar_notin s s' n : ~ In (V s) (map (I s') (ports n)).
Proof. intros Hi. apply in_map_iff in Hi. destruct Hi as [x [E _]]. congruence. Qed.

Ltac pin := solve [ cbn [In]; intuition discriminate
  | unfold perf_fgs, perf_wfs; cbn [app In]; rewrite ?in_app_iff; cbn [In];
    intuition (try discriminate);
    match goal with
    | H : In (I ?s _) (map (I ?s') _) |- _ => revert H; apply ports_notin; discriminate
    | H : In (V _) (map _ _) |- _ => revert H; apply scalar_notin end
  | unfold perf_fgs, perf_wfs; apply ports_in_map; auto
  | unfold perf_fgs, perf_wfs; right; apply ports_in_map; auto ].
Ltac pinit := unfold performance; cbn [decls]; unfold jinit; cbn [fold_left app];
  repeat (first [ rewrite in_dec_true by pin | rewrite in_dec_false by pin ]).

Lemma perf_ins_cases nn nb i : In i (ins (performance nn nb)) ->
  In i [V "Pt2"; V "Pt3"; V "ram_drag"; V "power"] \/ (exists k, i = I "Fg_" k /\ In k (ports nn)) \/ (exists k, i = I "Wfuel_" k /\ In k (ports nb)).
Proof.
  intros Hi. cbn [performance ins] in Hi. apply in_app_or in Hi. destruct Hi as [Hi|Hi]; auto. right.
  rewrite in_app_iff in Hi. unfold perf_fgs, perf_wfs in Hi. rewrite !in_map_iff in Hi. firstorder.
Qed.

Ltac pgo fin := (first [ left; eexists; split; [intros J; pJ; reflexivity|] | right; split; [intros e0 J; pJ; reflexivity|]; pinit ]);
      (eapply dl_ext; [intros t; pC; reflexivity|]); dfin fin.

Lemma perf_exact_on nn nb : jac_exact_on (performance nn nb) (perf_dom nn nb) (fun o _ => o <> V "TSFC").
Proof.
  apply jac_exact_on_intro. intros e old o i [H2 [Hpw Hfn]] Ho Hi Hs. apply perf_ins_cases in Hi.
  cbn [performance outs compute partials] in *.
  destruct (PeanoNat.Nat.eq_dec nb 0) as [->|Hnb].
  - cbn [app] in Ho. destruct Hi as [Hi|[[k [-> Hk]]|[k [_ []]]]].
    + inlist Ho; inlist Hi; pgo ltac:(repeat split; auto).
    + inlist Ho; pgo ltac:(repeat split; auto).
  - replace (match nb with O => [] | S _ => [V "TSFC"; V "PSFC"; V "Wfuel"] end) with [V "TSFC"; V "PSFC"; V "Wfuel"] in Ho by (destruct nb; congruence).
    assert (Hd : decls (performance nn nb) = [([V "OPR"], [V "Pt3"; V "Pt2"], 0); ([V "Fg"], perf_fgs nn, 1); ([V "Fn"], perf_fgs nn, 1);
      ([V "Fn"], [V "ram_drag"], -1); ([V "TSFC"], perf_fgs nn ++ [V "ram_drag"] ++ perf_wfs nb, 0);
           ([V "PSFC"], V "power" :: perf_wfs nb, 0); ([V "Wfuel"], perf_wfs nb, 1)]) by (destruct nb; [congruence|reflexivity]).
    destruct Hi as [Hi|[[k [-> Hk]]|[k [-> Hk]]]].
    + inlist Ho; inlist Hi; try congruence; rewrite Hd; pgo ltac:(repeat split; auto).
    + inlist Ho; try congruence; rewrite Hd; pgo ltac:(repeat split; auto).
    + inlist Ho; try congruence; rewrite Hd; pgo ltac:(repeat split; auto).
Qed.

Lemma tsfc_ideal_deriv nn nb e i hist : nb <> O -> perf_dom nn nb e -> In i (ins (performance nn nb)) ->
  derivable_pt_lim (fun t => acc_loop (I "Wfuel_") nb (upd e i t) * 3600 / (acc_loop (I "Fg_") nn (upd e i t) - upd e i t (V "ram_drag")))
    (e i) (jac_after (performance nn nb) hist e (V "TSFC") i).
Proof.
  intros Hnb [H2 [Hpw Hfn]] Hi. apply perf_ins_cases in Hi.
  assert (Hd : decls (performance nn nb) = [([V "OPR"], [V "Pt3"; V "Pt2"], 0); ([V "Fg"], perf_fgs nn, 1); ([V "Fn"], perf_fgs nn, 1);
      ([V "Fn"], [V "ram_drag"], -1); ([V "TSFC"], perf_fgs nn ++ [V "ram_drag"] ++ perf_wfs nb, 0);
           ([V "PSFC"], V "power" :: perf_wfs nb, 0); ([V "Wfuel"], perf_wfs nb, 1)]) by (destruct nb; [congruence|reflexivity]).
  assert (K : forall o i0, (forall e J, perf_partials nn nb e J o i0 = J o i0) -> jac_after (performance nn nb) hist e o i0 = jinit (decls (performance nn nb)) o i0).
  { intros. apply jconst; auto. }
  destruct Hi as [Hi|[[k [-> Hk]]|[k [-> Hk]]]].
  - inlist Hi;
    (first [ unfold jac_after; cbn [performance partials]; pJ; match goal with |- context [fold_left] => fail 1 | _ => idtac end
           | rewrite K by (intros; pJ; reflexivity); rewrite Hd; pinit ]);
    (eapply dl_ext; [intros t; rewrite ?(acc_other (I "Fg_")) by (intros; discriminate); rewrite ?(acc_other (I "Wfuel_")) by (intros; discriminate); vsimp; reflexivity|]);
    dfin ltac:(repeat split; auto).
  - unfold jac_after; cbn [performance partials]; pJ.
    eapply dl_ext; [intros t; rewrite acc_same by auto; rewrite (acc_other (I "Wfuel_")) by (intros; discriminate); vsimp; reflexivity|].
    dfin ltac:(try split; auto; intros Hz; apply Hfn; lra).
  - unfold jac_after; cbn [performance partials]; pJ.
    eapply dl_ext; [intros t; rewrite acc_same by auto; rewrite (acc_other (I "Fg_")) by (intros; discriminate); vsimp; reflexivity|].
    dfin ltac:(repeat split; auto).
Qed.

Lemma perf_declared nn nb : jac_declared (performance nn nb).
Proof.
  intros e J o i Hn. cbn [performance partials decls] in *.
  destruct (PeanoNat.Nat.eq_dec nb 0) as [->|Hnb].
  - jdecl_split. rewrite perf_partials_eq. cbv zeta. unfold perf_loops. cbn [ports seq fold_left].
    rewrite (fold_skip _ (fun J => J o i)) by auto. jdecl_fin.
  - replace (match nb with O => [] | S _ => [([V "TSFC"], perf_fgs nn ++ [V "ram_drag"] ++ perf_wfs nb, 0);
           ([V "PSFC"], V "power" :: perf_wfs nb, 0); ([V "Wfuel"], perf_wfs nb, 1)] end) with
      [([V "TSFC"], perf_fgs nn ++ [V "ram_drag"] ++ perf_wfs nb, 0);
           ([V "PSFC"], V "power" :: perf_wfs nb, 0); ([V "Wfuel"], perf_wfs nb, 1)] in Hn by (destruct nb; congruence).
    cbn [app] in Hn. jdecl_split. rewrite perf_partials_S by auto. cbv zeta.
    rewrite jset_undeclared. 2: intros <- <-; apply Hn5; simpl; auto.
    rewrite jset_undeclared. 2: intros <- <-; apply Hn4; [simpl; auto|rewrite in_app_iff; simpl; auto].
    unfold perf_loops. rewrite (fold_skip _ (fun J => J o i)).
    + rewrite (fold_skip _ (fun J => J o i)).
      * rewrite !jset_undeclared; auto; intros <- <-; apply Hn0; simpl; auto.
      * intros j a Hj. destruct nb; auto. apply jset_undeclared. intros <- <-. apply Hn4; [simpl; auto|].
        rewrite in_app_iff. left. unfold perf_fgs. apply in_map; auto.
    + intros j a Hj. cbv zeta. rewrite !jset_undeclared; auto; intros <- <-.
      * apply Hn4; [simpl; auto|]. rewrite in_app_iff. right. right. unfold perf_wfs. apply in_map; auto.
      * apply Hn5; [simpl; auto|]. right. unfold perf_wfs. apply in_map; auto.
Qed.

Lemma perf_writes nn nb : writes_all (performance nn nb).
Proof.
  intros e e' old old' o Ho He. cbn [performance outs ins compute] in *.
  assert (Es : forall s, In (V s) [V "Pt2"; V "Pt3"; V "ram_drag"; V "power"] -> e (V s) = e' (V s)).
  { intros s Hs. apply He. apply in_or_app. auto. }
  assert (A1 : acc_loop (I "Fg_") nn e = acc_loop (I "Fg_") nn e').
  { rewrite !acc_eq. apply lsum_ext. intros k Hk. apply He. rewrite !in_app_iff. right; left. apply in_map; auto. }
  assert (A2 : acc_loop (I "Wfuel_") nb e = acc_loop (I "Wfuel_") nb e').
  { rewrite !acc_eq. apply lsum_ext. intros k Hk. apply He. rewrite !in_app_iff. right; right. apply in_map; auto. }
  unfold perf_compute. rewrite A1, A2, !Es by (simpl; tauto). cbv zeta.
  destruct nb; cbn [app] in Ho; inlist Ho; vsimp; auto.
Qed.
