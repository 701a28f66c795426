From Verif Require Import Lib_R Model_Split.
Open Scope string_scope. Open Scope list_scope. Open Scope R_scope.

Ltac un := cbv beta zeta delta [bpr_compute bpr_partials].

Lemma bpr_ok : comp_ok bpr_calc (fun e => e (V "BPR") + 1 <> 0).
Proof. cok bpr_calc un ltac:(repeat split; auto). Qed.

Section Bleed.
Variable bs : list string.

Lemma bleed_W_out e old : bleed_compute bs e old (V "W_out") =
  e (V "W_in") - lsum (fun b => e (V "W_in") * e (B b "frac_W")) bs.
Proof.
  unfold bleed_compute.
  rewrite (fold_acc _ (fun o => o (V "W_out")) bs _ (fun b => - (e (V "W_in") * e (B b "frac_W")))).
  - vsimp. rewrite lsum_opp. lra.
  - intros b a' _. cbv zeta. vsimp. lra.
Qed.
Lemma bleed_stat e old b : In b bs -> bleed_compute bs e old (B b "stat:W") = e (V "W_in") * e (B b "frac_W").
Proof.
  intros Hb. unfold bleed_compute. apply (fold_hit _ (fun o => o (B b "stat:W")) string_dec) with (b0 := b); auto.
  - intros b' a' _ Hne. cbv zeta. vsimp. auto.
  - intros a'. cbv zeta. vsimp. auto.
Qed.
Lemma bJ_W_out_W_in e J : bleed_partials bs e J (V "W_out") (V "W_in") = 1 - lsum (fun b => e (B b "frac_W")) bs.
Proof.
  unfold bleed_partials.
  rewrite (fold_acc _ (fun J => J (V "W_out") (V "W_in")) bs _ (fun b => - e (B b "frac_W"))).
  - vsimp. rewrite lsum_opp. lra.
  - intros b a' _. cbv zeta. vsimp. lra.
Qed.
Lemma bJ_W_out_frac e J b : In b bs -> bleed_partials bs e J (V "W_out") (B b "frac_W") = - e (V "W_in").
Proof.
  intros Hb. unfold bleed_partials. apply (fold_hit _ (fun J => J (V "W_out") (B b "frac_W")) string_dec) with (b0 := b); auto.
  - intros b' a' _ Hne. cbv zeta. vsimp. auto.
  - intros a'. cbv zeta. vsimp. auto.
Qed.
Lemma bJ_stat_W_in e J b : In b bs -> bleed_partials bs e J (B b "stat:W") (V "W_in") = e (B b "frac_W").
Proof.
  intros Hb. unfold bleed_partials. apply (fold_hit _ (fun J => J (B b "stat:W") (V "W_in")) string_dec) with (b0 := b); auto.
  - intros b' a' _ Hne. cbv zeta. vsimp. auto.
  - intros a'. cbv zeta. vsimp. auto.
Qed.
Lemma bJ_stat_frac e J b : In b bs -> bleed_partials bs e J (B b "stat:W") (B b "frac_W") = e (V "W_in").
Proof.
  intros Hb. unfold bleed_partials. apply (fold_hit _ (fun J => J (B b "stat:W") (B b "frac_W")) string_dec) with (b0 := b); auto.
  - intros b' a' _ Hne. cbv zeta. vsimp. auto.
  - intros a'. cbv zeta. vsimp. auto.
Qed.
Lemma bJ_stat_frac_other e J b b' : b <> b' -> bleed_partials bs e J (B b "stat:W") (B b' "frac_W") = J (B b "stat:W") (B b' "frac_W").
Proof.
  intros Hb. unfold bleed_partials. rewrite (fold_skip _ (fun J => J (B b "stat:W") (B b' "frac_W"))); [vsimp; auto|].
  intros c a' _. cbv zeta. vsimp.
  rewrite !jset_undeclared; auto; intros E1 E2; inversion E1; inversion E2; subst; congruence.
Qed.

Lemma jinit_bleed_cross b b' : b <> b' -> jinit (decls (bleed_calcs bs)) (B b "stat:W") (B b' "frac_W") = 0.
Proof.
  intros Hne. unfold bleed_calcs; cbn [decls]. rewrite jinit_snoc.
  rewrite in_dec_false by (cbn [In]; intuition discriminate).
  unfold jinit. apply (fold_skip _ (fun x => x)). intros d a' Hd. apply in_map_iff in Hd.
  destruct Hd as [c [<- Hc]]. destruct (in_dec var_eq_dec (B b "stat:W") [B c "stat:W"]) as [Hi|]; auto.
  destruct (in_dec var_eq_dec (B b' "frac_W") [V "W_in"; B c "frac_W"]) as [Hj|]; auto.
  inlist Hi; inlist Hj; try discriminate. inversion Hi; inversion Hj; subst; congruence.
Qed.

Lemma bleed_ok : NoDup bs -> comp_ok (bleed_calcs bs) (fun _ => True).
Proof.
  intros Hnd. split; [|split].
  - apply jac_exact_intro. intros e old o i _ Ho Hi. cbn [bleed_calcs outs ins compute partials] in *.
    destruct Ho as [<-|Ho]; [|apply in_map_iff in Ho; destruct Ho as [b [<- Hb]]];
    (destruct Hi as [<-|Hi]; [|apply in_map_iff in Hi; destruct Hi as [b' [<- Hb']]]).
    + left. eexists. split; [intros J; apply bJ_W_out_W_in|].
      eapply dl_ext. { intros t. rewrite bleed_W_out. vsimp.
        rewrite (lsum_ext _ (fun b => t * e (B b "frac_W"))) by (intros; vsimp; auto).
        rewrite lsum_scal. reflexivity. }
      dfin ltac:(auto).
    + left. eexists. split; [intros J; apply bJ_W_out_frac; auto|].
      eapply dl_ext. { intros t. rewrite bleed_W_out. vsimp. rewrite lsum_scal. reflexivity. }
      apply is_derive_Reals.
      apply (is_derive_ext (fun t => e (V "W_in") - lsum (fun b => e (V "W_in") * upd e (B b' "frac_W") t (B b "frac_W")) bs)).
      { intros t. now rewrite lsum_scal. }
      replace (- e (V "W_in")) with (0 - e (V "W_in")) by lra.
      apply (is_derive_minus (V := R_NormedModule)). { apply (is_derive_const (V := R_NormedModule)). }
      apply is_derive_lsum_single with (a := b'); auto.
      * intros b Hb Hne. apply (is_derive_ext (fun t => e (V "W_in") * e (B b "frac_W"))).
        { intros t. vsimp. auto. } apply (is_derive_const (V := R_NormedModule)).
      * apply (is_derive_ext (fun t => e (V "W_in") * t)). { intros t. vsimp. auto. } auto_derive; auto; lra.
    + left. eexists. split; [intros J; apply bJ_stat_W_in; auto|].
      eapply dl_ext. { intros t. rewrite bleed_stat by auto. vsimp. reflexivity. } dfin ltac:(auto).
    + destruct (string_dec b b') as [<-|Hne].
      * left. eexists. split; [intros J; apply bJ_stat_frac; auto|].
        eapply dl_ext. { intros t. rewrite bleed_stat by auto. vsimp. reflexivity. } dfin ltac:(auto).
      * right. split; [intros; apply bJ_stat_frac_other; auto|]. rewrite jinit_bleed_cross by auto.
        eapply dl_ext. { intros t. rewrite bleed_stat by auto. vsimp. reflexivity. } dfin ltac:(auto).
  - intros e J o i Hn. cbn [bleed_calcs decls partials] in *. unfold bleed_partials.
    assert (Hw : forall b, In b bs -> (V "W_out" = o -> V "W_in" = i -> False) /\ (V "W_out" = o -> B b "frac_W" = i -> False)
       /\ (B b "stat:W" = o -> V "W_in" = i -> False) /\ (B b "stat:W" = o -> B b "frac_W" = i -> False)).
    { intros b Hb. repeat split; intros <- <-; apply Hn; eexists _, _, _; (split; [apply in_or_app|]).
      1,3: right; left; reflexivity.
      3,5: left; apply in_map_iff; exists b; split; [reflexivity|auto].
      all: cbn [In]; auto. split; auto. right. apply in_map_iff; eauto. }
    rewrite (fold_skip _ (fun J => J o i)).
    + apply jset_undeclared. intros <- <-. apply Hn. eexists _, _, _. split; [apply in_or_app; right; left; reflexivity|cbn [In]; auto].
    + intros b a' Hb. destruct (Hw b Hb) as [W1 [W2 [W3 W4]]]. cbv zeta.
      rewrite !jset_undeclared; auto.
  - intros e e' old old' o Ho He. cbn [bleed_calcs outs ins compute] in *. destruct Ho as [<-|Ho].
    + rewrite !bleed_W_out. rewrite !He by (simpl; auto). f_equal. apply lsum_ext. intros b Hb. f_equal.
      apply He. right. apply in_map_iff; eauto.
    + apply in_map_iff in Ho. destruct Ho as [b [<- Hb]]. rewrite !bleed_stat by auto.
      rewrite !He; [auto|right; apply in_map_iff; eauto|simpl; auto].
Qed.
End Bleed.
