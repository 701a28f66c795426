From Verif Require Import Lib_Loop Model_Turbo.
Open Scope string_scope. Open Scope list_scope. Open Scope R_scope.

(* ---- BleedsAndPower ---- *)
Section BP.
Variable bs : list string.
Ltac step := intros; cbv beta zeta delta [bp_step]; vsimp; try lra; auto.
Lemma bp_W_out e old : bp_compute bs e old (V "W_out") = e (V "W_in") + lsum (fun b => - (e (V "W_in") * e (B b "frac_W"))) bs.
Proof.
  unfold bp_compute. cbv zeta. vsimp.
  rewrite (fold_acc _ (fun o => o (V "W_out")) bs _ (fun b => - (e (V "W_in") * e (B b "frac_W")))); [vsimp; auto|step].
Qed.
Lemma bp_power e old : bp_compute bs e old (V "power") = e (V "W_in") * (e (V "ht_in") - e (V "ht_out")) * BTU_s2HP +
  lsum (fun b => - (e (V "W_in") * e (B b "frac_W") * (e (V "ht_in") + e (B b "frac_work") * (e (V "ht_out") - e (V "ht_in")) - e (V "ht_out")) * BTU_s2HP)) bs.
Proof.
  unfold bp_compute. cbv zeta. vsimp.
  rewrite (fold_acc _ (fun o => o (V "power")) bs _ (fun b => - (e (V "W_in") * e (B b "frac_W") * (e (V "ht_in") + e (B b "frac_work") * (e (V "ht_out") - e (V "ht_in")) - e (V "ht_out")) * BTU_s2HP))); [vsimp; auto|step].
Qed.
Lemma bp_trq_power e old : bp_compute bs e old (V "trq") = HP_per_RPM_to_FT_LBF * bp_compute bs e old (V "power") / e (V "Nmech").
Proof. unfold bp_compute. cbv zeta. vsimp. auto. Qed.
Lemma bp_trq e old : bp_compute bs e old (V "trq") =
  HP_per_RPM_to_FT_LBF * (e (V "W_in") * (e (V "ht_in") - e (V "ht_out")) * BTU_s2HP) * / e (V "Nmech") +
  lsum (fun b => HP_per_RPM_to_FT_LBF * (- (e (V "W_in") * e (B b "frac_W") * (e (V "ht_in") + e (B b "frac_work") * (e (V "ht_out") - e (V "ht_in")) - e (V "ht_out")) * BTU_s2HP)) * / e (V "Nmech")) bs.
Proof. rewrite bp_trq_power, bp_power, lsum_scal_r, lsum_scal. unfold Rdiv. ring. Qed.
Ltac hit b := unfold bp_compute; cbv zeta; vsimp;
  match goal with |- fold_left _ _ _ ?v = _ => apply (fold_hit _ (fun o => o v) string_dec) with (b0 := b); auto end;
  [intros b' a' _ Hne; cbv beta zeta delta [bp_step]; vsimp; auto | intros a'; cbv beta zeta delta [bp_step]; vsimp; auto].
Lemma bp_stat e old b : In b bs -> bp_compute bs e old (B b "stat:W") = e (V "W_in") * e (B b "frac_W").
Proof. intros Hb. hit b. Qed.
Lemma bp_Pt e old b : In b bs -> bp_compute bs e old (B b "Pt") = e (V "Pt_in") + e (B b "frac_P") * (e (V "Pt_out") - e (V "Pt_in")).
Proof. intros Hb. hit b. Qed.
Lemma bp_ht e old b : In b bs -> bp_compute bs e old (B b "ht") = e (V "ht_in") + e (B b "frac_work") * (e (V "ht_out") - e (V "ht_in")).
Proof. intros Hb. hit b. Qed.

(* Jacobian: entries written once per bleed, accumulated entries, untouched entries *)
Ltac pacc g := unfold bp_partials; cbv zeta; vsimp;
  match goal with |- snd (fold_left _ _ _) ?v = _ =>
    rewrite (fold_acc _ (fun s : jac * env => snd s v) bs _ g); [cbn [snd]; unfold bp_loc0; cbv zeta; vsimp; reflexivity|] end;
  intros b [J0 l0] _; lazy beta iota zeta delta [bp_pstep snd]; vsimp; ring.
Ltac phit b := unfold bp_partials; cbv zeta; jread;
  match goal with |- fst (fold_left _ _ _) ?o ?i = _ =>
    apply (fold_hit _ (fun s : jac * env => fst s o i) string_dec) with (b0 := b); [assumption| |] end;
  [intros b' [J0 l0] _ Hne; lazy beta iota zeta delta [bp_pstep fst]; jread; reflexivity
  |intros [J0 l0]; lazy beta iota zeta delta [bp_pstep fst]; jread; reflexivity].
Ltac pskip := unfold bp_partials; cbv zeta; jread;
  match goal with |- fst (fold_left _ _ _) ?o ?i = _ =>
    rewrite (fold_skip _ (fun s : jac * env => fst s o i)); [reflexivity|] end;
  intros c [J0 l0] _; lazy beta iota zeta delta [bp_pstep fst]; jread; reflexivity.

Lemma bpJ1 e J : bp_partials bs e J (V "W_out") (V "W_in") = 1 + lsum (fun b => - e (B b "frac_W")) bs.
Proof. pacc (fun b => - e (B b "frac_W")). Qed.
Lemma bpJ2 e J : bp_partials bs e J (V "power") (V "W_in") = (e (V "ht_in") - e (V "ht_out")) * BTU_s2HP +
  lsum (fun b => - (e (B b "frac_W") * (1 - e (B b "frac_work")) * (e (V "ht_in") - e (V "ht_out")) * BTU_s2HP)) bs.
Proof. pacc (fun b => - (e (B b "frac_W") * (1 - e (B b "frac_work")) * (e (V "ht_in") - e (V "ht_out")) * BTU_s2HP)). Qed.
Lemma bpJ3 e J : bp_partials bs e J (V "power") (V "ht_in") = e (V "W_in") * BTU_s2HP +
  lsum (fun b => - (e (V "W_in") * e (B b "frac_W") * (1 - e (B b "frac_work")) * BTU_s2HP)) bs.
Proof. pacc (fun b => - (e (V "W_in") * e (B b "frac_W") * (1 - e (B b "frac_work")) * BTU_s2HP)). Qed.
Lemma bpJ4 e J : bp_partials bs e J (V "power") (V "ht_out") = - e (V "W_in") * BTU_s2HP +
  lsum (fun b => e (V "W_in") * e (B b "frac_W") * (1 - e (B b "frac_work")) * BTU_s2HP) bs.
Proof. pacc (fun b => e (V "W_in") * e (B b "frac_W") * (1 - e (B b "frac_work")) * BTU_s2HP). Qed.
Lemma bpJ5 e J : bp_partials bs e J (V "trq") (V "W_in") =
  (e (V "ht_in") - e (V "ht_out")) * BTU_s2HP * HP_per_RPM_to_FT_LBF / e (V "Nmech") +
  lsum (fun b => - (e (B b "frac_W") * (1 - e (B b "frac_work")) * (e (V "ht_in") - e (V "ht_out")) * BTU_s2HP * HP_per_RPM_to_FT_LBF / e (V "Nmech"))) bs.
Proof. pacc (fun b => - (e (B b "frac_W") * (1 - e (B b "frac_work")) * (e (V "ht_in") - e (V "ht_out")) * BTU_s2HP * HP_per_RPM_to_FT_LBF / e (V "Nmech"))). Qed.
Lemma bpJ6 e J : bp_partials bs e J (V "trq") (V "ht_in") = e (V "W_in") * BTU_s2HP * HP_per_RPM_to_FT_LBF / e (V "Nmech") +
  lsum (fun b => - (e (V "W_in") * e (B b "frac_W") * (1 - e (B b "frac_work")) * BTU_s2HP * HP_per_RPM_to_FT_LBF / e (V "Nmech"))) bs.
Proof. pacc (fun b => - (e (V "W_in") * e (B b "frac_W") * (1 - e (B b "frac_work")) * BTU_s2HP * HP_per_RPM_to_FT_LBF / e (V "Nmech"))). Qed.
Lemma bpJ7 e J : bp_partials bs e J (V "trq") (V "ht_out") = - e (V "W_in") * BTU_s2HP * HP_per_RPM_to_FT_LBF / e (V "Nmech") +
  lsum (fun b => - (- e (V "W_in") * e (B b "frac_W") * (1 - e (B b "frac_work")) * BTU_s2HP * HP_per_RPM_to_FT_LBF / e (V "Nmech"))) bs.
Proof. pacc (fun b => - (- e (V "W_in") * e (B b "frac_W") * (1 - e (B b "frac_work")) * BTU_s2HP * HP_per_RPM_to_FT_LBF / e (V "Nmech"))). Qed.
Lemma bpJ8 e J : bp_partials bs e J (V "trq") (V "Nmech") =
  - e (V "W_in") * (e (V "ht_in") - e (V "ht_out")) * BTU_s2HP * HP_per_RPM_to_FT_LBF * / (e (V "Nmech") ^ 2) +
  lsum (fun b => - (- e (V "W_in") * e (B b "frac_W") * (1 - e (B b "frac_work")) * (e (V "ht_in") - e (V "ht_out")) * BTU_s2HP * HP_per_RPM_to_FT_LBF * / (e (V "Nmech") ^ 2))) bs.
Proof. pacc (fun b => - (- e (V "W_in") * e (B b "frac_W") * (1 - e (B b "frac_work")) * (e (V "ht_in") - e (V "ht_out")) * BTU_s2HP * HP_per_RPM_to_FT_LBF * / (e (V "Nmech") ^ 2))). Qed.

Ltac ocl := lazymatch goal with
  | |- bp_compute _ _ _ (V "W_out") = _ => rewrite bp_W_out
  | |- bp_compute _ _ _ (V "power") = _ => rewrite bp_power
  | |- bp_compute _ _ _ (V "trq") = _ => rewrite bp_trq
  | |- bp_compute _ _ _ (B _ "stat:W") = _ => rewrite bp_stat by assumption
  | |- bp_compute _ _ _ (B _ "Pt") = _ => rewrite bp_Pt by assumption
  | |- bp_compute _ _ _ (B _ "ht") = _ => rewrite bp_ht by assumption end.
Ltac dcl := eapply dl_ext; [intros t; ocl; vsimp; reflexivity|].
Ltac ad := auto_derive; [repeat split; auto | try (field; auto)].
Ltac tw := cbv beta; eapply is_derive_ext; [intros t; vsimp; reflexivity|]; ad.
Ltac sumd := apply dl_base_sum; [ad | intros c Hc; tw].
Ltac sum0 := eapply dl_val; cycle 1; [apply dl_base_sum with (dT := fun _ => 0); [apply (is_derive_const (V := R_NormedModule))
  | intros c Hc; tw] | rewrite lsum_0; [change (0 + 0 = 0); ring|auto]].
Ltac sumone bb := apply dl_sum_one with (a := bb); [assumption|assumption|intros c t Hc Hne; cbv beta; vsimp; reflexivity | tw].
Ltac pacc_lem := lazymatch goal with
  | |- bp_partials _ _ _ (V "W_out") (V "W_in") = _ => apply bpJ1
  | |- bp_partials _ _ _ (V "power") (V "W_in") = _ => apply bpJ2
  | |- bp_partials _ _ _ (V "power") (V "ht_in") = _ => apply bpJ3
  | |- bp_partials _ _ _ (V "power") (V "ht_out") = _ => apply bpJ4
  | |- bp_partials _ _ _ (V "trq") (V "W_in") = _ => apply bpJ5
  | |- bp_partials _ _ _ (V "trq") (V "ht_in") = _ => apply bpJ6
  | |- bp_partials _ _ _ (V "trq") (V "ht_out") = _ => apply bpJ7
  | |- bp_partials _ _ _ (V "trq") (V "Nmech") = _ => apply bpJ8 end.
Lemma bp_exact : NoDup bs -> jac_exact (bleeds_and_power bs) (fun e => e (V "Nmech") <> 0).
Proof.
  intros Hnd. apply jac_exact_intro0. { intros o i. cbn [bleeds_and_power decls]; zero_decls. }
  intros e old o i HN Ho Hi.
  unfold bleeds_and_power in Ho, Hi |- *. cbn [outs ins compute partials] in *.
  inflat Ho; inflat Hi.
  all: try (match goal with b : string, b' : string |- _ => destruct (string_dec b b'); [subst|] end).
  all: first [ right; split; [intros ? ?; pskip|]
    | left; eexists; split; [intros J; pacc_lem|]
    | left; eexists; split; [intros J; match goal with H : In ?b bs |- _ => phit b end|] ].
  all: dcl.
  all: try (apply derivable_pt_lim_const).
  all: lazymatch goal with
    | |- derivable_pt_lim (fun t => _ + lsum _ _) _ 0 => sum0
    | H : In ?a _ |- derivable_pt_lim (fun t => _ + lsum _ _) (_ (B _ _)) _ => sumone a
    | |- derivable_pt_lim (fun t => _ + lsum _ _) _ _ => sumd
    | _ => apply is_derive_Reals; ad end.
Qed.
Lemma bp_declared : jac_declared (bleeds_and_power bs).
Proof.
  intros e J o i Hn. unfold bleeds_and_power in *. cbn [decls partials] in *.
  apply not_declares_app in Hn. destruct Hn as [Hf Hb].
  repeat (apply not_declares_cons in Hf; destruct Hf as [?Hn Hf]).
  unfold bp_partials. cbv zeta. repeat rewrite jset_undeclared.
  2-9: intros <- <-; match goal with H : In _ _ -> In _ _ -> False |- _ => solve [apply H; cbn [In]; tauto] end.
  rewrite (fold_skip _ (fun s : jac * env => fst s o i)); [reflexivity|].
  intros b [J0 l0] Hi. assert (Hd := not_declares_flat _ _ b _ _ Hb Hi). cbv beta in Hd.
  repeat (apply not_declares_cons in Hd; destruct Hd as [?Hn Hd]).
  lazy beta iota zeta delta [bp_pstep fst]. repeat rewrite jset_undeclared; [reflexivity|..].
  all: intros <- <-; match goal with H : In _ _ -> In _ _ -> False |- _ => solve [apply H; cbn [In]; tauto] end.
Qed.
Lemma bp_wall : writes_all (bleeds_and_power bs).
Proof.
  intros e e' old old' o Ho He. unfold bleeds_and_power in *. cbn [outs ins compute] in *.
  assert (Hv : forall v, In v [V "W_in"; V "ht_out"; V "ht_in"; V "Pt_out"; V "Pt_in"; V "Nmech"] -> e v = e' v).
  { intros v Hv. apply He. apply in_or_app. auto. }
  assert (Hb : forall b v, In b bs -> In v [B b "frac_W"; B b "frac_P"; B b "frac_work"] -> e v = e' v).
  { intros b v Hb Hv'. apply He. apply in_or_app. right. apply in_flat_map. eauto. }
  inflat Ho; rewrite ?bp_W_out, ?bp_power, ?bp_trq, ?bp_stat, ?bp_Pt, ?bp_ht by assumption;
    repeat match goal with |- context [e (V ?s)] => rewrite (Hv (V s)) by (cbn [In]; tauto) end.
  1-3: f_equal; apply lsum_ext; intros b Hb'; rewrite !(Hb b) by (auto; cbn [In]; tauto); reflexivity.
  all: rewrite !(Hb b) by (auto; cbn [In]; tauto); reflexivity.
Qed.
Lemma bp_ok : NoDup bs -> comp_ok (bleeds_and_power bs) (fun e => e (V "Nmech") <> 0).
Proof. intros H. split; [apply bp_exact; auto|split; [apply bp_declared|apply bp_wall]]. Qed.
End BP.

(* ---- BleedPressure ---- *)
Section BLP.
Variable bs : list string.
Lemma blp_Pt e old b : In b bs -> blp_compute bs e old (B b "Pt") = e (V "Pt_out") + e (B b "frac_P") * (e (V "Pt_in") - e (V "Pt_out")).
Proof.
  intros Hb. unfold blp_compute. cbv zeta. apply (fold_hit _ (fun o => o (B b "Pt")) string_dec) with (b0 := b); auto.
  - intros b' a' _ Hne. uread. reflexivity.
  - intros a'. uread. reflexivity.
Qed.
Ltac phit b := unfold blp_partials; cbv zeta;
  match goal with |- fold_left _ _ _ ?o ?i = _ =>
    apply (fold_hit _ (fun s : jac => s o i) string_dec) with (b0 := b); [assumption| |] end;
  [intros b' J0 _ Hne; cbv beta; jread; reflexivity|intros J0; cbv beta; jread; reflexivity].
Ltac pskip := unfold blp_partials; cbv zeta;
  match goal with |- fold_left _ _ _ ?o ?i = _ =>
    rewrite (fold_skip _ (fun s : jac => s o i)); [reflexivity|] end;
  intros c J0 _; cbv beta; jread; reflexivity.
Lemma blp_exact : jac_exact (bleed_pressure bs) (fun _ => True).
Proof.
  apply jac_exact_intro0. { intros o i. cbn [bleed_pressure decls]; zero_decls. }
    intros e old o i _ Ho Hi. unfold bleed_pressure in Ho, Hi |- *. cbn [outs ins compute partials] in *.
    inflat Ho; inflat Hi.
    all: try (match goal with b : string, b' : string |- _ => destruct (string_dec b b'); [subst|] end).
    all: first [ right; split; [intros ? ?; pskip|]
      | left; eexists; split; [intros J; match goal with H : In ?b bs |- _ => phit b end|] ].
    all: eapply dl_ext; [intros t; rewrite blp_Pt by assumption; vsimp; reflexivity|].
    all: apply is_derive_Reals; auto_derive; auto; ring.
Qed.
Lemma blp_ok : comp_ok (bleed_pressure bs) (fun _ => True).
Proof.
  split; [exact blp_exact|split].
  - intros e J o i Hn. unfold bleed_pressure in *. cbn [decls partials] in *. unfold blp_partials. cbv zeta.
    rewrite (fold_skip _ (fun s : jac => s o i)); [reflexivity|].
    intros b J0 Hi. assert (Hd := not_declares_flat _ _ b _ _ Hn Hi). cbv beta in Hd.
    repeat (apply not_declares_cons in Hd; destruct Hd as [?Hn Hd]).
    repeat rewrite jset_undeclared; [reflexivity|..];
    intros <- <-; match goal with H : In _ _ -> In _ _ -> False |- _ => solve [apply H; cbn [In]; tauto] end.
  - intros e e' old old' o Ho He. unfold bleed_pressure in *. cbn [outs ins compute] in *.
    inflat Ho. rewrite !blp_Pt by assumption. rewrite (He (V "Pt_in")), (He (V "Pt_out")), (He (B b "frac_P")); auto.
    + apply in_or_app. right. apply in_flat_map. exists b. cbn [In]. auto.
    + cbn [In app]. auto.
    + cbn [In app]. auto.
Qed.
End BLP.

(* ---- EnthalpyAndPower ---- *)
Section EP.
Variable bs : list string.
Ltac step := intros; cbv beta zeta delta [ep_step]; vsimp; reflexivity.
Lemma ep_b4bld e old : ep_compute bs e old (V "ht_out_b4bld") = e (V "ht_in") * (1 - e (V "eff")) + e (V "ht_out_ideal") * e (V "eff").
Proof. unfold ep_compute. cbv zeta. uread. reflexivity. Qed.
Lemma ep_ht_out e old : ep_compute bs e old (V "ht_out") =
  e (V "W_in") / e (V "W_out") * (e (V "ht_in") * (1 - e (V "eff")) + e (V "ht_out_ideal") * e (V "eff")) +
  lsum (fun b => e (B b "W") / e (V "W_out") * (e (B b "ht") * (1 - e (V "eff")) + e (B b "ht_ideal") * e (V "eff"))) bs.
Proof.
  unfold ep_compute. cbv zeta. uread.
  rewrite (fold_acc _ (fun o => o (V "ht_out")) bs _ (fun b => e (B b "W") / e (V "W_out") * (e (B b "ht") * (1 - e (V "eff")) + e (B b "ht_ideal") * e (V "eff"))));
    [vsimp; reflexivity|step].
Qed.
Lemma ep_power e old : ep_compute bs e old (V "power") =
  e (V "W_in") * e (V "eff") * (e (V "ht_in") - e (V "ht_out_ideal")) * BTU_s2HP +
  lsum (fun b => e (B b "W") * e (V "eff") * (e (B b "ht") - e (B b "ht_ideal")) * BTU_s2HP) bs.
Proof.
  unfold ep_compute. cbv zeta. uread.
  rewrite (fold_acc _ (fun o => o (V "power")) bs _ (fun b => e (B b "W") * e (V "eff") * (e (B b "ht") - e (B b "ht_ideal")) * BTU_s2HP));
    [vsimp; reflexivity|step].
Qed.
Lemma ep_trq_power e old : ep_compute bs e old (V "trq") = ep_compute bs e old (V "power") / e (V "Nmech") * HP_per_RPM_to_FT_LBF.
Proof. unfold ep_compute. cbv zeta. uread. symmetry. rewrite (upd_neq _ (V "trq")), (upd_neq _ (V "ht_out")), (upd_neq _ (V "ht_out_b4bld")), upd_eq by discriminate. reflexivity. Qed.
Lemma ep_trq e old : ep_compute bs e old (V "trq") =
  e (V "W_in") * e (V "eff") * (e (V "ht_in") - e (V "ht_out_ideal")) * BTU_s2HP * (/ e (V "Nmech") * HP_per_RPM_to_FT_LBF) +
  lsum (fun b => e (B b "W") * e (V "eff") * (e (B b "ht") - e (B b "ht_ideal")) * BTU_s2HP * (/ e (V "Nmech") * HP_per_RPM_to_FT_LBF)) bs.
Proof. rewrite ep_trq_power, ep_power, (lsum_scal_r (/ e (V "Nmech") * HP_per_RPM_to_FT_LBF)). unfold Rdiv. ring. Qed.

Ltac pacc g := unfold ep_partials; cbv zeta; jread;
  match goal with |- snd (fold_left _ _ _) ?v = _ =>
    rewrite (fold_acc _ (fun s : jac * env => snd s v) bs _ g); [cbn [snd]; vsimp; reflexivity|] end;
  intros b [J0 l0] _; lazy beta iota zeta delta [ep_pstep snd]; vsimp; reflexivity.
Ltac phit b := unfold ep_partials; cbv zeta; jread;
  match goal with |- fst (fold_left _ _ _) ?o ?i = _ =>
    apply (fold_hit _ (fun s : jac * env => fst s o i) string_dec) with (b0 := b); [assumption| |] end;
  [intros b' [J0 l0] _ Hne; lazy beta iota zeta delta [ep_pstep fst]; jread; reflexivity
  |intros [J0 l0]; lazy beta iota zeta delta [ep_pstep fst]; jread; reflexivity].
Ltac pskip := unfold ep_partials; cbv zeta; jread;
  match goal with |- fst (fold_left _ _ _) ?o ?i = _ =>
    rewrite (fold_skip _ (fun s : jac * env => fst s o i)); [cbn [fst]; jread; reflexivity|] end;
  intros c [J0 l0] _; lazy beta iota zeta delta [ep_pstep fst]; jread; reflexivity.
Lemma epJ1 e J : ep_partials bs e J (V "ht_out") (V "W_out") =
  - e (V "W_in") / e (V "W_out") ^ 2 * (e (V "ht_in") * (1 - e (V "eff")) + e (V "ht_out_ideal") * e (V "eff")) +
  lsum (fun b => - e (B b "W") / e (V "W_out") ^ 2 * (e (B b "ht") * (1 - e (V "eff")) + e (B b "ht_ideal") * e (V "eff"))) bs.
Proof. pacc (fun b => - e (B b "W") / e (V "W_out") ^ 2 * (e (B b "ht") * (1 - e (V "eff")) + e (B b "ht_ideal") * e (V "eff"))). Qed.
Lemma epJ2 e J : ep_partials bs e J (V "ht_out") (V "eff") =
  e (V "W_in") / e (V "W_out") * (e (V "ht_out_ideal") - e (V "ht_in")) +
  lsum (fun b => e (B b "W") / e (V "W_out") * (e (B b "ht_ideal") - e (B b "ht"))) bs.
Proof. pacc (fun b => e (B b "W") / e (V "W_out") * (e (B b "ht_ideal") - e (B b "ht"))). Qed.
Lemma epJ3 e J : ep_partials bs e J (V "power") (V "eff") =
  e (V "W_in") * (e (V "ht_in") - e (V "ht_out_ideal")) * BTU_s2HP + lsum (fun b => e (B b "W") * (e (B b "ht") - e (B b "ht_ideal")) * BTU_s2HP) bs.
Proof. pacc (fun b => e (B b "W") * (e (B b "ht") - e (B b "ht_ideal")) * BTU_s2HP). Qed.
Lemma epJ4 e J : ep_partials bs e J (V "trq") (V "eff") =
  e (V "W_in") * (e (V "ht_in") - e (V "ht_out_ideal")) / e (V "Nmech") * BTU_s2HP * HP_per_RPM_to_FT_LBF +
  lsum (fun b => e (B b "W") * (e (B b "ht") - e (B b "ht_ideal")) / e (V "Nmech") * BTU_s2HP * HP_per_RPM_to_FT_LBF) bs.
Proof. pacc (fun b => e (B b "W") * (e (B b "ht") - e (B b "ht_ideal")) / e (V "Nmech") * BTU_s2HP * HP_per_RPM_to_FT_LBF). Qed.
Lemma epJ5 e J : ep_partials bs e J (V "trq") (V "Nmech") =
  - e (V "W_in") * e (V "eff") * (e (V "ht_in") - e (V "ht_out_ideal")) / e (V "Nmech") ^ 2 * BTU_s2HP * HP_per_RPM_to_FT_LBF +
  lsum (fun b => - e (B b "W") * e (V "eff") * (e (B b "ht") - e (B b "ht_ideal")) / e (V "Nmech") ^ 2 * BTU_s2HP * HP_per_RPM_to_FT_LBF) bs.
Proof. pacc (fun b => - e (B b "W") * e (V "eff") * (e (B b "ht") - e (B b "ht_ideal")) / e (V "Nmech") ^ 2 * BTU_s2HP * HP_per_RPM_to_FT_LBF). Qed.
(* entries written before the loop and not touched by it *)
Ltac ppre := unfold ep_partials; cbv zeta; jread;
  match goal with |- fst (fold_left _ _ _) ?o ?i = _ =>
    rewrite (fold_skip _ (fun s : jac * env => fst s o i)); [cbn [fst]; jread; reflexivity|] end;
  intros c [J0 l0] _; lazy beta iota zeta delta [ep_pstep fst]; jread; reflexivity.
Ltac pacc_lem := lazymatch goal with
  | |- ep_partials _ _ _ (V "ht_out") (V "W_out") = _ => apply epJ1
  | |- ep_partials _ _ _ (V "ht_out") (V "eff") = _ => apply epJ2
  | |- ep_partials _ _ _ (V "power") (V "eff") = _ => apply epJ3
  | |- ep_partials _ _ _ (V "trq") (V "eff") = _ => apply epJ4
  | |- ep_partials _ _ _ (V "trq") (V "Nmech") = _ => apply epJ5 end.
Ltac ocl := lazymatch goal with
  | |- ep_compute _ _ _ (V "ht_out_b4bld") = _ => rewrite ep_b4bld
  | |- ep_compute _ _ _ (V "ht_out") = _ => rewrite ep_ht_out
  | |- ep_compute _ _ _ (V "power") = _ => rewrite ep_power
  | |- ep_compute _ _ _ (V "trq") = _ => rewrite ep_trq end.
Ltac dcl := eapply dl_ext; [intros t; ocl; vsimp; reflexivity|].
Ltac ad := auto_derive; [repeat split; tauto | try (field; tauto)].
Ltac tw := cbv beta; eapply is_derive_ext; [intros t; vsimp; reflexivity|]; ad.
Ltac sumd := apply dl_base_sum; [ad | intros c Hc; tw].
Ltac sum0 := eapply dl_val; cycle 1; [apply dl_base_sum with (dT := fun _ => 0); [apply (is_derive_const (V := R_NormedModule))
  | intros c Hc; tw] | rewrite lsum_0; [change (0 + 0 = 0); ring|auto]].
(* the sum does not depend on the variable *)
Ltac sumc := eapply dl_val; cycle 1; [apply dl_base_sum with (dT := fun _ => 0); [ad
  | intros c Hc; tw] | rewrite lsum_0; [apply Rplus_0_r|auto]].
Ltac sumone bb := apply dl_sum_one with (a := bb); [assumption|assumption|intros c t Hc Hne; cbv beta; vsimp; reflexivity | tw].
Lemma ep_exact : NoDup bs -> jac_exact (enthalpy_and_power bs) (fun e => e (V "Nmech") <> 0 /\ e (V "W_out") <> 0).
Proof.
  intros Hnd. apply jac_exact_intro0. { intros o i. cbn [enthalpy_and_power decls]; zero_decls. }
  intros e old o i HN Ho Hi.
  unfold enthalpy_and_power in Ho, Hi |- *. cbn [outs ins compute partials] in *.
  inflat Ho; inflat Hi.
  all: first [ right; split; [intros ? ?; pskip|]
    | left; eexists; split; [intros J; pacc_lem|]
    | left; eexists; split; [intros J; ppre|]
    | left; eexists; split; [intros J; match goal with H : In ?b bs |- _ => phit b end|] ].
  all: dcl.
  all: try (apply derivable_pt_lim_const).
  all: lazymatch goal with
    | |- derivable_pt_lim (fun t => _ + lsum _ _) _ 0 => sum0
    | H : In ?a _ |- derivable_pt_lim (fun t => _ + lsum _ _) (_ (B _ _)) _ => sumone a
    | |- derivable_pt_lim (fun t => _ + lsum _ _) _ (_ + lsum _ _) => sumd
    | |- derivable_pt_lim (fun t => _ + lsum _ _) _ _ => apply is_derive_Reals; ad
    | _ => apply is_derive_Reals; ad end.
Qed.
Lemma ep_declared : jac_declared (enthalpy_and_power bs).
Proof.
  intros e J o i Hn. unfold enthalpy_and_power in *. cbn [decls partials] in *.
  apply not_declares_app in Hn. destruct Hn as [Hb Hf].
  repeat (apply not_declares_cons in Hf; destruct Hf as [?Hn Hf]).
  unfold ep_partials. cbv zeta. repeat rewrite jset_undeclared.
  2-6: intros <- <-; match goal with H : In _ _ -> In _ _ -> False |- _ => solve [apply H; cbn [In]; tauto] end.
  rewrite (fold_skip _ (fun s : jac * env => fst s o i)).
  - cbn [fst]. repeat rewrite jset_undeclared; [reflexivity|..];
    intros <- <-; match goal with H : In _ _ -> In _ _ -> False |- _ => solve [apply H; cbn [In]; tauto] end.
  - intros b [J0 l0] Hi. assert (Hd := not_declares_flat _ _ b _ _ Hb Hi). cbv beta in Hd.
    repeat (apply not_declares_cons in Hd; destruct Hd as [?Hn Hd]).
    lazy beta iota zeta delta [ep_pstep fst]. repeat rewrite jset_undeclared; [reflexivity|..];
    intros <- <-; match goal with H : In _ _ -> In _ _ -> False |- _ => solve [apply H; cbn [In]; tauto] end.
Qed.
Lemma ep_wall : writes_all (enthalpy_and_power bs).
Proof.
  intros e e' old old' o Ho He. unfold enthalpy_and_power in *. cbn [outs ins compute] in *.
  assert (Hv : forall v, In v [V "W_in"; V "W_out"; V "ht_in"; V "ht_out_ideal"; V "eff"; V "Nmech"] -> e v = e' v).
  { intros v Hv. apply He. apply in_or_app. auto. }
  assert (Hb : forall b v, In b bs -> In v [B b "W"; B b "ht"; B b "ht_ideal"] -> e v = e' v).
  { intros b v Hb Hv'. apply He. apply in_or_app. right. apply in_flat_map. eauto. }
  inflat Ho; rewrite ?ep_b4bld, ?ep_ht_out, ?ep_power, ?ep_trq;
    repeat match goal with |- context [e (V ?s)] => rewrite (Hv (V s)) by (cbn [In]; tauto) end; try reflexivity.
  all: f_equal; apply lsum_ext; intros b Hb'; rewrite !(Hb b) by (auto; cbn [In]; tauto); reflexivity.
Qed.
Lemma ep_ok : NoDup bs -> comp_ok (enthalpy_and_power bs) (fun e => e (V "Nmech") <> 0 /\ e (V "W_out") <> 0).
Proof. intros H. split; [apply ep_exact; auto|split; [apply ep_declared|apply ep_wall]]. Qed.
End EP.
