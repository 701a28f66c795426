From Verif Require Import Lib_R Lib_Loop Model_Equil Proofs_Equil.
From Coq Require Import Lia FunctionalExtensionality.
Open Scope string_scope. Open Scope list_scope. Open Scope R_scope.

(* ---- tables and declared constants ---- *)
Lemma tlook_val t r c v : (forall v', In (r, c, v') t -> v' = v) -> ((exists v', In (r, c, v') t) \/ v = 0) -> tlook t r c = v.
Proof.
  unfold tlook. intros H Hex.
  assert (G : forall l a, (forall v', In (r, c, v') l -> v' = v) -> (a = v \/ (exists v', In (r, c, v') l)) ->
    fold_left (fun acc rcv => let '(r', c', v0) := rcv in if Nat.eqb r' r && Nat.eqb c' c then v0 else acc) l a = v).
  { induction l as [|[[r' c'] v0] l' IH]; intros a Hl Ha; cbn [fold_left].
    - destruct Ha as [->|[? []]]. reflexivity.
    - apply IH; [intros; apply Hl; right; auto|].
      destruct (Nat.eqb_spec r' r) as [->|N1]; [destruct (Nat.eqb_spec c' c) as [->|N2]|]; cbn [andb].
      + left. apply Hl. left; auto.
      + destruct Ha as [->|[v' [E|Hv]]]; [left; auto|injection E; intros; congruence|right; eauto].
      + destruct Ha as [->|[v' [E|Hv]]]; [left; auto|injection E; intros; congruence|right; eauto]. }
  apply G; auto. destruct Hex as [Hex| ->]; auto.
Qed.
Lemma jinit_val ds o i v : (forall os is w, In (os, is, w) ds -> In o os -> In i is -> w = v) -> (declares ds o i \/ v = 0) -> jinit ds o i = v.
Proof.
  intros H Hex. unfold jinit.
  assert (G : forall l a, (forall os is w, In (os, is, w) l -> In o os -> In i is -> w = v) -> (a = v \/ declares l o i) ->
    fold_left (fun acc (d : decl) => let '(os, is, v0) := d in if in_dec var_eq_dec o os then if in_dec var_eq_dec i is then v0 else acc else acc) l a = v).
  { induction l as [|[[os is] w] l' IH]; intros a Hl Ha; cbn [fold_left].
    - destruct Ha as [->|(? & ? & ? & [] & _)]. reflexivity.
    - apply IH; [intros; eapply Hl; eauto; right; auto|].
      destruct (in_dec var_eq_dec o os) as [Y1|N1]; [destruct (in_dec var_eq_dec i is) as [Y2|N2]|].
      + left. eapply Hl; eauto. left; auto.
      + destruct Ha as [->|(os' & is' & w' & [E|Hv] & K1 & K2)]; [left; auto|injection E; intros; subst; tauto|right; exists os', is', w'; auto].
      + destruct Ha as [->|(os' & is' & w' & [E|Hv] & K1 & K2)]; [left; auto|injection E; intros; subst; tauto|right; exists os', is', w'; auto]. }
  apply G; auto. destruct Hex as [Hex| ->]; auto.
Qed.
Lemma flat_inj n i j i' j' : (j <= n)%nat -> (j' <= n)%nat -> (S n * i + j = S n * i' + j')%nat -> i = i' /\ j = j'.
Proof.
  intros H H' E. assert (i = i'). { rewrite (Nat.div_unique (S n * i + j) (S n) i j) by lia. rewrite E. symmetry. apply (Nat.div_unique _ _ i' j'); lia. }
  subst. lia.
Qed.

Section RHS.
Variable g : gas.
Lemma dn_look i j k : (i <= ne g)%nat -> (j <= ne g)%nat -> (k < np g)%nat ->
  tlook (dlhs_dn g) (S (ne g) * i + j) k = if Nat.ltb i (ne g) && Nat.ltb j (ne g) then aij_prod g i j k else 0.
Proof.
  intros Hi Hj Hk.
  assert (Inv : forall v, In ((S (ne g) * i + j)%nat, k, v) (dlhs_dn g) -> (i < ne g)%nat /\ (j < ne g)%nat /\ v = aij_prod g i j k).
  { intros v H. unfold dlhs_dn in H. apply in_flat_map in H as (i' & Hi' & H). apply in_flat_map in H as (j' & Hj' & H). apply in_map_iff in H as (k' & E & Hk').
    apply in_seq0 in Hi', Hj', Hk'. injection E as E1 E2 E3. destruct (flat_inj (ne g) i' j' i j) as [-> ->]; [lia|lia|lia|]. subst. auto. }
  destruct (Nat.ltb_spec i (ne g)) as [Li|Li]; [destruct (Nat.ltb_spec j (ne g)) as [Lj|Lj]|]; cbn [andb].
  - apply tlook_val; [intros v' H; apply Inv in H as (_ & _ & ->); reflexivity|]. left. exists (aij_prod g i j k).
    apply in_flat_map. exists i. split; [apply in_seq0; auto|]. apply in_flat_map. exists j. split; [apply in_seq0; auto|]. apply in_map_iff. exists k. split; [reflexivity|apply in_seq0; auto].
  - apply tlook_val; [intros v' H; apply Inv in H as (A & B & _); lia|auto].
  - apply tlook_val; [intros v' H; apply Inv in H as (A & B & _); lia|auto].
Qed.
Lemma db_look i j k : (i <= ne g)%nat -> (j <= ne g)%nat -> (k < ne g)%nat ->
  tlook (dlhs_db0 g) (S (ne g) * i + j) k = if Nat.eqb i (ne g) && Nat.eqb j k || Nat.eqb j (ne g) && Nat.eqb i k then 1 else 0.
Proof.
  intros Hi Hj Hk.
  assert (Inv : forall v, In ((S (ne g) * i + j)%nat, k, v) (dlhs_db0 g) -> v = 1 /\ (i = ne g /\ j = k \/ j = ne g /\ i = k)).
  { intros v H. unfold dlhs_db0 in H. apply in_flat_map in H as (_ & _ & H). apply in_flat_map in H as (j' & Hj' & H). apply in_seq0 in Hj'.
    destruct H as [H|[H|[]]]; injection H as E1 E2 E3.
    - destruct (flat_inj (ne g) (ne g) j' i j) as [<- <-]; [lia|lia|lia|]. subst. auto.
    - destruct (flat_inj (ne g) j' (ne g) i j) as [<- <-]; [lia|lia|lia|]. subst. auto. }
  assert (Hit : (i = ne g /\ j = k \/ j = ne g /\ i = k) -> In ((S (ne g) * i + j)%nat, k, 1) (dlhs_db0 g)).
  { intros Hc. unfold dlhs_db0. apply in_flat_map. exists 0%nat. split; [apply in_seq0; lia|]. apply in_flat_map. exists k. split; [apply in_seq0; auto|].
    destruct Hc as [[-> ->]|[-> ->]]; cbn [In]; auto. }
  destruct (Nat.eqb_spec i (ne g)) as [Ei|Ni], (Nat.eqb_spec j k) as [Ej|Nj], (Nat.eqb_spec j (ne g)) as [Ej2|Nj2], (Nat.eqb_spec i k) as [Ei2|Ni2]; cbn [andb orb];
    apply tlook_val; try (intros v' H; apply Inv in H as [? ?]; try reflexivity; auto; lia); try (right; reflexivity); left; exists 1; apply Hit; auto.
Qed.
(* what is declared, as a relation *)
Inductive rhs_declared : var -> var -> R -> Prop :=
| rd_Pm i : (i <= ne g)%nat -> rhs_declared (I "rhs_P" i) (V "n_moles") (if Nat.eqb i (ne g) then 1 else 0)
| rd_Pb i j : (i <= ne g)%nat -> (j < ne g)%nat -> rhs_declared (I "rhs_P" i) (I "composition" j) (sel_eq i j)
| rd_An i j k : (i <= ne g)%nat -> (j <= ne g)%nat -> (k < np g)%nat ->
    rhs_declared (M "lhs_TP" i j) (I "n" k) (if Nat.ltb i (ne g) && Nat.ltb j (ne g) then aij_prod g i j k else 0)
| rd_Ab i j k : (i <= ne g)%nat -> (j <= ne g)%nat -> (k < ne g)%nat ->
    rhs_declared (M "lhs_TP" i j) (I "composition" k) (if Nat.eqb i (ne g) && Nat.eqb j k || Nat.eqb j (ne g) && Nat.eqb i k then 1 else 0)
| rd_TT i : (i <= ne g)%nat -> rhs_declared (I "rhs_T" i) (V "T") 0
| rd_Tn i k : (i <= ne g)%nat -> (k < np g)%nat -> rhs_declared (I "rhs_T" i) (I "n" k) 0.
Lemma in_seqS n j : In j (seq 0 (S n)) <-> (j <= n)%nat. Proof. rewrite in_seq. lia. Qed.
Lemma rhs_decls_iff o i w : rhs_declared o i w <-> exists os is, In (os, is, w) (rhs_decls g) /\ In o os /\ In i is.
Proof.
  unfold rhs_decls. split.
  - intros H. destruct H.
    + exists [I "rhs_P" i], [V "n_moles"]. split; [|cbn; auto]. rewrite !in_app_iff. left. apply in_map_iff. exists i. split; [reflexivity|apply in_seqS; auto].
    + exists [I "rhs_P" i], [I "composition" j]. split; [|cbn; auto]. rewrite !in_app_iff. right; left. apply in_flat_map. exists i. split; [apply in_seqS; auto|].
      apply in_map_iff. exists j. split; [reflexivity|apply in_seq0; auto].
    + exists [M "lhs_TP" i j], [I "n" k]. split; [|cbn; auto]. rewrite !in_app_iff. right; right; left. apply in_flat_map. exists i. split; [apply in_seqS; auto|].
      apply in_flat_map. exists j. split; [apply in_seqS; auto|]. apply in_map_iff. exists k. split; [rewrite dn_look by auto; reflexivity|apply in_seq0; auto].
    + exists [M "lhs_TP" i j], [I "composition" k]. split; [|cbn; auto]. rewrite !in_app_iff. right; right; right; left. apply in_flat_map. exists i. split; [apply in_seqS; auto|].
      apply in_flat_map. exists j. split; [apply in_seqS; auto|]. apply in_map_iff. exists k. split; [rewrite db_look by auto; reflexivity|apply in_seq0; auto].
    + exists (map (I "rhs_T") (seq 0 (S (ne g)))), [V "T"]. split; [rewrite !in_app_iff; right; right; right; right; left; reflexivity|]. split; [apply in_map, in_seqS; auto|cbn; auto].
    + exists (map (I "rhs_T") (seq 0 (S (ne g)))), (map (I "n") (seq 0 (np g))). split; [rewrite !in_app_iff; right; right; right; right; right; left; reflexivity|].
      split; [apply in_map, in_seqS; auto|apply in_map, in_seq0; auto].
  - intros (os & is & H & Ho & Hi). rewrite !in_app_iff in H. destruct H as [H|[H|[H|[H|H]]]].
    + apply in_map_iff in H as (a & E & Ha). injection E as <- <- <-. apply in_seqS in Ha. destruct Ho as [<-|[]], Hi as [<-|[]]. constructor; auto.
    + apply in_flat_map in H as (a & Ha & H). apply in_map_iff in H as (b & E & Hb). injection E as <- <- <-. apply in_seqS in Ha. apply in_seq0 in Hb. destruct Ho as [<-|[]], Hi as [<-|[]]. constructor; auto.
    + apply in_flat_map in H as (a & Ha & H). apply in_flat_map in H as (b & Hb & H). apply in_map_iff in H as (c & E & Hc). injection E as <- <- <-. apply in_seqS in Ha, Hb. apply in_seq0 in Hc.
      destruct Ho as [<-|[]], Hi as [<-|[]]. pose proof (dn_look a b c Ha Hb Hc) as DL. cbn [Nat.mul] in DL. rewrite DL. constructor; auto.
    + apply in_flat_map in H as (a & Ha & H). apply in_flat_map in H as (b & Hb & H). apply in_map_iff in H as (c & E & Hc). injection E as <- <- <-. apply in_seqS in Ha, Hb. apply in_seq0 in Hc.
      destruct Ho as [<-|[]], Hi as [<-|[]]. pose proof (db_look a b c Ha Hb Hc) as DL. cbn [Nat.mul] in DL. rewrite DL. constructor; auto.
    + destruct H as [H|[H|[]]]; apply pair_equal_spec in H as [H <-]; apply pair_equal_spec in H as [<- <-].
      * apply in_map_iff in Ho as (a & <- & Ha). apply in_seqS in Ha. destruct Hi as [<-|[]]. constructor; auto.
      * apply in_map_iff in Ho as (a & <- & Ha). apply in_seqS in Ha. apply in_map_iff in Hi as (b & <- & Hb). apply in_seq0 in Hb. constructor; auto.
Qed.
Lemma rhs_jinit o i v : (forall w, rhs_declared o i w -> w = v) -> ((exists w, rhs_declared o i w) \/ v = 0) -> jinit (rhs_decls g) o i = v.
Proof.
  intros H Hex. apply jinit_val.
  - intros os is w Hin Ho Hi. apply H. apply rhs_decls_iff. eauto.
  - destruct Hex as [[w Hw]|]; auto. left. apply rhs_decls_iff in Hw as (os & is & A & B & C). exists os, is, w. auto.
Qed.
Lemma rhs_ins_inv i : In i (ins (props_rhs g)) -> i = V "T" \/ i = V "n_moles" \/ (exists k, (k < np g)%nat /\ i = I "n" k) \/ (exists k, (k < ne g)%nat /\ i = I "composition" k).
Proof.
  cbn [props_rhs ins]. rewrite !in_app_iff. cbn [In]. intros [[<-|[<-|[]]]|[H|H]]; auto; apply in_map_iff in H as (k & <- & Hk); apply in_seq0 in Hk; [right; right; left|right; right; right]; eauto.
Qed.
Lemma rhs_outs_inv o : In o (outs (props_rhs g)) -> (exists i, (i <= ne g)%nat /\ o = I "rhs_T" i) \/ (exists i, (i <= ne g)%nat /\ o = I "rhs_P" i) \/
  (exists i j, (i <= ne g)%nat /\ (j <= ne g)%nat /\ o = M "lhs_TP" i j).
Proof.
  cbn [props_rhs outs]. unfold lhs_vars. rewrite !in_app_iff. intros [H|[H|H]].
  - apply in_map_iff in H as (k & <- & Hk). apply in_seqS in Hk. eauto.
  - apply in_map_iff in H as (k & <- & Hk). apply in_seqS in Hk. eauto.
  - apply in_flat_map in H as (i & Hi & H). apply in_map_iff in H as (j & <- & Hj). apply in_seqS in Hi, Hj. right; right. eauto 6.
Qed.
Ltac eqs := cbn [String.eqb Ascii.eqb Bool.eqb andb].
Lemma leb_t a b : (a <= b)%nat -> Nat.leb a b = true. Proof. apply Nat.leb_le. Qed.
Lemma rhs_exact : jac_exact (props_rhs g) (fun e => smooth_at g (e (V "T"))).
Proof.
  apply jac_exact_intro. intros e old o i Hs Ho Hi. apply rhs_ins_inv in Hi. cbn [props_rhs compute partials decls].
  apply rhs_outs_inv in Ho as [(a & Ha & ->)|[(a & Ha & ->)|(a & b & Ha & Hb & ->)]].
  - (* rhs_T *)
    assert (DH : forall k, (k < np g)%nat -> is_derive (fun t => H0 g k (upd e i t (V "T"))) (e i) (dH0 g k (e (V "T")) * ind i (V "T"))).
    { intros k Hk. apply is_derive_fun, is_derive_Reals, Hs; auto. }
    assert (DN : forall k, (k < np g)%nat -> is_derive (fun t => upd e i t (I "n" k) * H0 g k (upd e i t (V "T"))) (e i)
       (ind i (I "n" k) * H0 g k (e (V "T")) + ind i (V "T") * (e (I "n" k) * dH0 g k (e (V "T"))))).
    { intros k Hk. eapply is_derive_val; [apply dmul; [apply is_derive_upd|apply DH; auto]|]. cbv beta. rewrite !upd_self. ring. }
    assert (D : is_derive (fun t => rhs_compute g (upd e i t) old (I "rhs_T" a)) (e i)
      (if Nat.ltb a (ne g) then nsum (np g) (fun k => ind i (I "n" k) * (aij g a k * H0 g k (e (V "T")))) + ind i (V "T") * nsum (np g) (fun k => aij g a k * (e (I "n" k) * dH0 g k (e (V "T"))))
       else nsum (np g) (fun k => ind i (I "n" k) * H0 g k (e (V "T"))) + ind i (V "T") * nsum (np g) (fun k => e (I "n" k) * dH0 g k (e (V "T"))))).
    { unfold rhs_compute. eqs. destruct (Nat.ltb_spec a (ne g)) as [L|L].
      - rewrite <- nsum_scal, <- nsum_plus. apply (is_derive_nsum (np g) (fun t k => aij g a k * (upd e i t (I "n" k) * H0 g k (upd e i t (V "T"))))).
        intros k Hk. eapply is_derive_val; [apply dscal_l; apply DN; auto|]. ring.
      - replace (Nat.eqb a (ne g)) with true by (symmetry; apply Nat.eqb_eq; lia). rewrite <- nsum_scal, <- nsum_plus.
        apply (is_derive_nsum (np g) (fun t k => upd e i t (I "n" k) * H0 g k (upd e i t (V "T")))). intros k Hk. apply DN; auto. }
    destruct Hi as [->|[->|[(k & Hk & ->)|(k & Hk & ->)]]].
    + left. eexists. split; [intros J; unfold rhs_partials_self; eqs; rewrite (leb_t _ _ Ha); reflexivity|]. apply is_derive_Reals. eapply is_derive_val; [exact D|].
      rewrite ind_t. destruct (Nat.ltb a (ne g)); rewrite nsum_ind0 by discriminate; ring.
    + right. split; [intros e0 J; unfold rhs_partials_self; eqs; rewrite (leb_t _ _ Ha); reflexivity|]. rewrite (rhs_jinit _ _ 0); [|intros w Hw; inversion Hw|auto]. apply is_derive_Reals. eapply is_derive_val; [exact D|].
      rewrite ind_f by discriminate. destruct (Nat.ltb a (ne g)); rewrite nsum_ind0 by discriminate; ring.
    + left. eexists. split; [intros J; unfold rhs_partials_self; eqs; rewrite (leb_t _ _ Ha), (ltb_t _ _ Hk); reflexivity|]. apply is_derive_Reals. eapply is_derive_val; [exact D|].
      rewrite (ind_f _ (V "T")) by discriminate.
      destruct (Nat.ltb a (ne g)); [rewrite (nsum_ind _ _ _ (fun k => aij g a k * H0 g k (e (V "T")))) by auto|rewrite (nsum_ind _ _ _ (fun k => H0 g k (e (V "T")))) by auto]; ring.
    + right. split; [intros e0 J; unfold rhs_partials_self; eqs; rewrite (leb_t _ _ Ha); reflexivity|]. rewrite (rhs_jinit _ _ 0); [|intros w Hw; inversion Hw|auto]. apply is_derive_Reals. eapply is_derive_val; [exact D|].
      rewrite ind_f by discriminate. destruct (Nat.ltb a (ne g)); rewrite nsum_ind0 by discriminate; ring.
  - (* rhs_P *)
    right. split; [intros; reflexivity|].
    assert (D : is_derive (fun t => rhs_compute g (upd e i t) old (I "rhs_P" a)) (e i) (if Nat.ltb a (ne g) then ind i (I "composition" a) else ind i (V "n_moles"))).
    { unfold rhs_compute. eqs. destruct (Nat.ltb_spec a (ne g)) as [L|L]; [apply is_derive_upd|]. replace (Nat.eqb a (ne g)) with true by (symmetry; apply Nat.eqb_eq; lia). apply is_derive_upd. }
    apply is_derive_Reals. eapply is_derive_val; [exact D|]. symmetry.
    destruct Hi as [->|[->|[(k & Hk & ->)|(k & Hk & ->)]]].
    + apply rhs_jinit; [intros w Hw; inversion Hw|right]. rewrite !ind_f by discriminate. destruct (Nat.ltb _ _); auto.
    + rewrite ind_t, ind_f by discriminate. apply rhs_jinit; [intros w Hw; inversion Hw; subst|left; eexists; constructor; auto].
      destruct (Nat.ltb_spec a (ne g)), (Nat.eqb_spec a (ne g)); auto; lia.
    + apply rhs_jinit; [intros w Hw; inversion Hw|right]. rewrite !ind_f by discriminate. destruct (Nat.ltb _ _); auto.
    + apply rhs_jinit; [intros w Hw; inversion Hw; subst|left; eexists; constructor; auto]. rewrite (ind_f _ (V _)) by discriminate. unfold sel_eq.
      destruct (Nat.ltb_spec a (ne g)), (Nat.eqb_spec a k); subst; try lia; try (rewrite ind_t; reflexivity); try reflexivity. rewrite ind_f; [reflexivity|intros Q; injection Q; auto].
  - (* lhs *)
    right. split; [intros; reflexivity|].
    assert (D : is_derive (fun t => rhs_compute g (upd e i t) old (M "lhs_TP" a b)) (e i)
      (if Nat.ltb a (ne g) && Nat.ltb b (ne g) then nsum (np g) (fun k => ind i (I "n" k) * aij_prod g a b k)
       else if Nat.ltb b (ne g) then ind i (I "composition" b) else if Nat.ltb a (ne g) then ind i (I "composition" a) else 0)).
    { unfold rhs_compute. eqs. destruct (Nat.ltb_spec a (ne g)) as [La|La], (Nat.ltb_spec b (ne g)) as [Lb|Lb]; cbn [andb].
      - apply (is_derive_nsum (np g) (fun t k => aij_prod g a b k * upd e i t (I "n" k))). intros k Hk. eapply is_derive_val; [apply dscal_l, is_derive_upd|ring].
      - replace (Nat.eqb b (ne g)) with true by (symmetry; apply Nat.eqb_eq; lia). replace (Nat.eqb a (ne g)) with false by (symmetry; apply Nat.eqb_neq; lia). cbn [andb]. apply is_derive_upd.
      - replace (Nat.eqb a (ne g)) with true by (symmetry; apply Nat.eqb_eq; lia). cbn [andb]. apply is_derive_upd.
      - replace (Nat.eqb a (ne g)) with true by (symmetry; apply Nat.eqb_eq; lia). replace (Nat.eqb b (ne g)) with true by (symmetry; apply Nat.eqb_eq; lia). cbn [andb]. apply dconst. }
    apply is_derive_Reals. eapply is_derive_val; [exact D|]. symmetry.
    destruct Hi as [->|[->|[(k & Hk & ->)|(k & Hk & ->)]]].
    + apply rhs_jinit; [intros w Hw; inversion Hw|right]. rewrite nsum_ind0 by discriminate. rewrite !ind_f by discriminate. destruct (Nat.ltb a _), (Nat.ltb b _); auto.
    + apply rhs_jinit; [intros w Hw; inversion Hw|right]. rewrite nsum_ind0 by discriminate. rewrite !ind_f by discriminate. destruct (Nat.ltb a _), (Nat.ltb b _); auto.
    + apply rhs_jinit; [intros w Hw; inversion Hw; subst|left; eexists; constructor; auto]. rewrite (nsum_ind _ _ _ (aij_prod g a b)) by auto. rewrite !ind_f by discriminate. destruct (Nat.ltb a _), (Nat.ltb b _); auto.
    + apply rhs_jinit; [intros w Hw; inversion Hw; subst|left; eexists; constructor; auto]. rewrite nsum_ind0 by discriminate. unfold ind.
      destruct (Nat.ltb_spec a (ne g)), (Nat.ltb_spec b (ne g)), (Nat.eqb_spec a (ne g)), (Nat.eqb_spec b (ne g)), (Nat.eqb_spec a k), (Nat.eqb_spec b k); cbn [andb orb]; subst; try lia; try reflexivity;
      destruct (var_eq_dec _ _) as [Q|Q]; try reflexivity; try (injection Q; intros; subst; lia); exfalso; apply Q; reflexivity.
Qed.
Lemma rhs_declared_ok : jac_declared (props_rhs g).
Proof.
  intros e J o i Hn. cbn [props_rhs partials decls] in *.
  assert (Hn' : forall w, ~ rhs_declared o i w). { intros w Hw. apply Hn. apply rhs_decls_iff in Hw as (os & is & A & B & C). exists os, is, w. auto. }
  unfold rhs_partials_self. destruct o as [s|s a|u s|s a b]; auto. destruct (String.eqb_spec s "rhs_T") as [->|]; [|reflexivity]. destruct (Nat.leb_spec a (ne g)) as [La|]; [|reflexivity]. cbn [andb].
  destruct i as [t|t k|u t|t k l]; auto.
  - destruct (String.eqb_spec t "T") as [->|]; [|reflexivity]. exfalso. apply (Hn' 0). constructor; auto.
  - destruct (String.eqb_spec t "n") as [->|]; [|reflexivity]. destruct (Nat.ltb_spec k (np g)) as [Lk|]; [|reflexivity]. exfalso. apply (Hn' 0). constructor; auto.
Qed.
Lemma rhs_writes : writes_all (props_rhs g).
Proof.
  intros e e' old old' o Ho He.
  assert (ET : e (V "T") = e' (V "T")) by (apply He; cbn [props_rhs ins app In]; auto).
  assert (EM : e (V "n_moles") = e' (V "n_moles")) by (apply He; cbn [props_rhs ins app In]; auto).
  assert (EN : forall k, (k < np g)%nat -> e (I "n" k) = e' (I "n" k)) by (intros k Hk; apply He; cbn [props_rhs ins]; rewrite !in_app_iff; right; left; apply in_map, in_seq0; auto).
  assert (EB : forall k, (k < ne g)%nat -> e (I "composition" k) = e' (I "composition" k)) by (intros k Hk; apply He; cbn [props_rhs ins]; rewrite !in_app_iff; right; right; apply in_map, in_seq0; auto).
  cbn [props_rhs compute]. unfold rhs_compute. apply rhs_outs_inv in Ho as [(a & Ha & ->)|[(a & Ha & ->)|(a & b & Ha & Hb & ->)]]; eqs.
  - rewrite ET. destruct (Nat.ltb_spec a (ne g)); [apply nsum_ext; intros; rewrite EN; auto|]. replace (Nat.eqb a (ne g)) with true by (symmetry; apply Nat.eqb_eq; lia). apply nsum_ext; intros; rewrite EN; auto.
  - destruct (Nat.ltb_spec a (ne g)); [auto|]. replace (Nat.eqb a (ne g)) with true by (symmetry; apply Nat.eqb_eq; lia). auto.
  - destruct (Nat.ltb_spec a (ne g)), (Nat.ltb_spec b (ne g)); cbn [andb].
    + apply nsum_ext; intros; rewrite EN; auto.
    + replace (Nat.eqb b (ne g)) with true by (symmetry; apply Nat.eqb_eq; lia). replace (Nat.eqb a (ne g)) with false by (symmetry; apply Nat.eqb_neq; lia). cbn [andb]. auto.
    + replace (Nat.eqb a (ne g)) with true by (symmetry; apply Nat.eqb_eq; lia). cbn [andb]. auto.
    + replace (Nat.eqb a (ne g)) with true by (symmetry; apply Nat.eqb_eq; lia). replace (Nat.eqb b (ne g)) with true by (symmetry; apply Nat.eqb_eq; lia). reflexivity.
Qed.
End RHS.

Section CALCS.
Variable g : gas.
Notation n_ e j := (e (I "n" j)). Notation T_ e := (e (V "T")).
Notation rT e i := (e (I "result_T" i)).
Lemma calcs_ins_inv i : In i (ins (props_calcs g)) -> i = V "T" \/ i = V "P" \/ (exists k, (k < np g)%nat /\ i = I "n" k) \/ i = V "n_moles" \/
  (exists k, (k <= ne g)%nat /\ i = I "result_T" k) \/ (exists k, (k <= ne g)%nat /\ i = I "result_P" k).
Proof.
  cbn [props_calcs ins]. unfold v_n, v_rT, v_rP. rewrite !in_app_iff. cbn [In]. intros [[<-|[<-|[]]]|[H|[[<-|[]]|[H|H]]]]; auto;
    apply in_map_iff in H as (k & <- & Hk); apply in_seq0 in Hk; [right; right; left; eauto|right; right; right; right; left|right; right; right; right; right]; exists k; split; auto; lia.
Qed.
Definition dA1 e i := nsum (np g) (fun j => ind i (I "n" j) * h0 g e j) + ind i (V "T") * nsum (np g) (fun j => nj e j * dH0 g j (T_ e)).
Definition dA2 e i := nsum (np g) (fun j => ind i (I "n" j) * h0 g e j ^ 2) + ind i (V "T") * (2 * nsum (np g) (fun j => nj e j * h0 g e j * dH0 g j (T_ e))).
Definition dInner e i a := nsum (np g) (fun j => ind i (I "n" j) * (aij g a j * h0 g e j)) + ind i (V "T") * nsum (np g) (fun j => aij g a j * nj e j * dH0 g j (T_ e)).
Definition dA3 e i := nsum (ne g) (fun a => dInner e i a * rT e a + ind i (I "result_T" a) * nsum (np g) (fun j => aij g a j * nj_H0 g e j)).
Definition dA4 e i := nsum (np g) (fun j => ind i (I "n" j) * Cp0 g j (T_ e)) + ind i (V "T") * nsum (np g) (fun j => nj e j * dCp0 g j (T_ e)).
Definition dCpG e i := (- dA3 e i + dA2 e i - (dA1 e i * rT e (ne g) + nsum (np g) (nj_H0 g e) * ind i (I "result_T" (ne g))) + dA4 e i) * R_ENG.
Lemma h0_d e i j : smooth_at g (T_ e) -> (j < np g)%nat -> is_derive (fun t => h0 g (upd e i t) j) (e i) (dH0 g j (T_ e) * ind i (V "T")).
Proof. intros Hs Hj. unfold h0. apply is_derive_fun, is_derive_Reals, Hs; auto. Qed.
Lemma h0_self e i j : h0 g (upd e i (e i)) j = h0 g e j. Proof. unfold h0. rewrite upd_self. reflexivity. Qed.
Lemma njH0_self e i j : nj_H0 g (upd e i (e i)) j = nj_H0 g e j. Proof. unfold nj_H0, nj. rewrite h0_self, upd_self. reflexivity. Qed.
Lemma njH0_d e i j : smooth_at g (T_ e) -> (j < np g)%nat ->
  is_derive (fun t => nj_H0 g (upd e i t) j) (e i) (ind i (I "n" j) * h0 g e j + ind i (V "T") * (nj e j * dH0 g j (T_ e))).
Proof.
  intros Hs Hj. unfold nj_H0, nj. eapply is_derive_val; [apply dmul; [apply is_derive_upd|apply h0_d; auto]|]. cbv beta. rewrite h0_self, upd_self. ring.
Qed.
Lemma A1_d e i : smooth_at g (T_ e) -> is_derive (fun t => nsum (np g) (nj_H0 g (upd e i t))) (e i) (dA1 e i).
Proof.
  intros Hs. unfold dA1. rewrite <- nsum_scal, <- nsum_plus. apply (is_derive_nsum (np g) (fun t j => nj_H0 g (upd e i t) j)). intros; apply njH0_d; auto.
Qed.
Lemma A2_d e i : smooth_at g (T_ e) -> is_derive (fun t => nsum (np g) (fun j => nj_H0 g (upd e i t) j * h0 g (upd e i t) j)) (e i) (dA2 e i).
Proof.
  intros Hs. unfold dA2. rewrite <- !nsum_scal, <- nsum_plus. apply (is_derive_nsum (np g) (fun t j => nj_H0 g (upd e i t) j * h0 g (upd e i t) j)).
  intros. eapply is_derive_val; [apply dmul; [apply njH0_d; auto|apply h0_d; auto]|]. cbv beta. rewrite h0_self, njH0_self. unfold nj_H0. ring.
Qed.
Lemma Inner_d e i a : smooth_at g (T_ e) -> is_derive (fun t => nsum (np g) (fun j => aij g a j * nj_H0 g (upd e i t) j)) (e i) (dInner e i a).
Proof.
  intros Hs. unfold dInner. rewrite <- !nsum_scal, <- nsum_plus. apply (is_derive_nsum (np g) (fun t j => aij g a j * nj_H0 g (upd e i t) j)).
  intros. eapply is_derive_val; [apply dscal_l, njH0_d; auto|]. ring.
Qed.
Lemma inner_self e i a : nsum (np g) (fun j => aij g a j * nj_H0 g (upd e i (e i)) j) = nsum (np g) (fun j => aij g a j * nj_H0 g e j).
Proof. apply nsum_ext. intros. rewrite njH0_self. reflexivity. Qed.
Lemma A3_d e i : smooth_at g (T_ e) ->
  is_derive (fun t => nsum (ne g) (fun a => nsum (np g) (fun j => aij g a j * nj_H0 g (upd e i t) j) * rT (upd e i t) a)) (e i) (dA3 e i).
Proof.
  intros Hs. unfold dA3. apply (is_derive_nsum (ne g) (fun t a => nsum (np g) (fun j => aij g a j * nj_H0 g (upd e i t) j) * rT (upd e i t) a)).
  intros a Ha. eapply is_derive_val; [apply dmul; [apply Inner_d; auto|apply is_derive_upd]|]. cbv beta. rewrite inner_self, upd_self. ring.
Qed.
Lemma A4_d e i : smooth_at g (T_ e) -> is_derive (fun t => Cpf g (upd e i t)) (e i) (dA4 e i).
Proof.
  intros Hs. unfold dA4, Cpf, nj. rewrite <- !nsum_scal, <- nsum_plus. apply (is_derive_nsum (np g) (fun t j => upd e i t (I "n" j) * Cp0 g j (T_ (upd e i t)))).
  intros. eapply is_derive_val; [apply dmul; [apply is_derive_upd|apply is_derive_fun, is_derive_Reals, Hs; auto]|]. cbv beta. rewrite !upd_self. ring.
Qed.
Lemma Cp_d e i : smooth_at g (T_ e) -> is_derive (fun t => pc_Cp g (upd e i t)) (e i) (dCpG e i).
Proof.
  intros Hs. unfold pc_Cp, Cpe, dCpG. apply (dscal (fun t => _ + _)). apply dplus; [|apply A4_d; auto].
  apply dminus; [apply dplus; [apply dopp, A3_d; auto|apply A2_d; auto]|].
  eapply is_derive_val; [apply dmul; [apply A1_d; auto|apply is_derive_upd]|]. cbv beta. rewrite upd_self. f_equal. f_equal. apply nsum_ext. intros; apply njH0_self.
Qed.
(* values of dCpG at every kind of input *)
Lemma dCp_T e : dCpG e (V "T") = dCp_dT g e.
Proof.
  unfold dCpG, dCp_dT, dA1, dA2, dA3, dA4, dInner. rewrite !ind_t. rewrite !(ind_f (V "T") (I _ _)) by discriminate. rewrite !nsum_ind0 by discriminate.
  f_equal. rewrite (nsum_ext (ne g) _ (fun a => nsum (np g) (fun j => aij g a j * nj e j * dH0 g j (T_ e)) * rT e a)).
  2: { intros a Ha. rewrite nsum_ind0 by discriminate. rewrite ind_f by discriminate. ring. } ring.
Qed.
Lemma dCp_n e k : (k < np g)%nat -> dCpG e (I "n" k) = dCp_dnj g e k.
Proof.
  intros Hk. unfold dCpG, dCp_dnj, dA1, dA2, dA3, dA4. rewrite !(ind_f (I "n" k) (V "T")), (ind_f (I "n" k) (I "result_T" (ne g))) by discriminate.
  rewrite (nsum_ind _ _ _ (h0 g e)), (nsum_ind _ _ _ (fun j => h0 g e j ^ 2)), (nsum_ind _ _ _ (fun j => Cp0 g j (T_ e))) by auto.
  rewrite (nsum_ext (ne g) _ (fun a => aij g a k * h0 g e k * rT e a)).
  2: { intros a Ha. unfold dInner. rewrite (nsum_ind _ _ _ (fun j => aij g a j * h0 g e j)) by auto. rewrite !ind_f by discriminate. ring. }
  rewrite (nsum_ext (ne g) (fun i => R_ENG * aij g i k * h0 g e k * rT e i) (fun a => R_ENG * (aij g a k * h0 g e k * rT e a))) by (intros; ring).
  rewrite nsum_scal. ring.
Qed.
Lemma dCp_rT e m : (m <= ne g)%nat -> dCpG e (I "result_T" m) = dCp_drT g e m.
Proof.
  intros Hm. unfold dCpG, dCp_drT, dA1, dA2, dA3, dA4. rewrite !(ind_f (I "result_T" m) (V "T")) by discriminate. rewrite !nsum_ind0 by discriminate.
  rewrite (nsum_ext (ne g) _ (fun a => ind (I "result_T" m) (I "result_T" a) * nsum (np g) (fun j => aij g a j * nj_H0 g e j))).
  2: { intros a Ha. unfold dInner. rewrite nsum_ind0 by discriminate. rewrite (ind_f _ (V "T")) by discriminate. ring. }
  destruct (Nat.ltb_spec m (ne g)) as [L|L].
  - rewrite (nsum_ind _ _ _ (fun a => nsum (np g) (fun j => aij g a j * nj_H0 g e j))) by auto. rewrite ind_f by (intros Q; injection Q; lia). ring.
  - replace m with (ne g) by lia. rewrite ind_t. replace (nsum (ne g) _) with 0; [ring|]. symmetry. apply lsum_0. intros a Ha. apply in_seq0 in Ha. rewrite ind_f by (intros Q; injection Q; lia). ring.
Qed.
Lemma dCp_other e x : x <> V "T" -> (forall k, x <> I "n" k) -> (forall k, x <> I "result_T" k) -> dCpG e x = 0.
Proof.
  intros N1 N2 N3. unfold dCpG, dA1, dA2, dA3, dA4. rewrite !(ind_f x (V "T")) by auto. rewrite !nsum_ind0 by auto. rewrite ind_f by auto.
  replace (nsum (ne g) _) with 0; [ring|]. symmetry. apply lsum_0. intros a _. unfold dInner. rewrite nsum_ind0 by auto. rewrite !ind_f by auto. ring.
Qed.
Definition dvT i := - ind i (I "result_T" (ne g)).
Definition dvP i := ind i (I "result_P" (ne g)).
Definition dCvG e i := dCpG e i + R_ENG * (ind i (V "n_moles") * dlnVqdlnT g e ^ 2 / dlnVqdlnP g e + e (V "n_moles") * (2 * dlnVqdlnT g e * dvT i) / dlnVqdlnP g e
   - e (V "n_moles") * dlnVqdlnT g e ^ 2 * dvP i / dlnVqdlnP g e ^ 2).
Lemma vT_d e i : is_derive (fun t => dlnVqdlnT g (upd e i t)) (e i) (dvT i).
Proof. unfold dlnVqdlnT, dvT. eapply is_derive_val; [apply dminus; [apply dconst|apply is_derive_upd]|ring]. Qed.
Lemma vP_d e i : is_derive (fun t => dlnVqdlnP g (upd e i t)) (e i) (dvP i).
Proof. unfold dlnVqdlnP, dvP. eapply is_derive_val; [apply dplus; [apply dconst|apply is_derive_upd]|ring]. Qed.
Lemma vT_self e i : dlnVqdlnT g (upd e i (e i)) = dlnVqdlnT g e. Proof. unfold dlnVqdlnT. rewrite upd_self. reflexivity. Qed.
Lemma vP_self e i : dlnVqdlnP g (upd e i (e i)) = dlnVqdlnP g e. Proof. unfold dlnVqdlnP. rewrite upd_self. reflexivity. Qed.
Lemma Cp_self e i : pc_Cp g (upd e i (e i)) = pc_Cp g e.
Proof. f_equal. apply functional_extensionality. intros. apply upd_self. Qed.
Lemma Cv_self e i : pc_Cv g (upd e i (e i)) = pc_Cv g e.
Proof. unfold pc_Cv. rewrite Cp_self, vT_self, vP_self, upd_self. reflexivity. Qed.
Lemma Cv_d e i : smooth_at g (T_ e) -> dlnVqdlnP g e <> 0 -> is_derive (fun t => pc_Cv g (upd e i t)) (e i) (dCvG e i).
Proof.
  intros Hs Hv. unfold pc_Cv, dCvG. apply dplus; [apply Cp_d; auto|].
  eapply is_derive_val.
  - apply ddiv; [rewrite vP_self; auto| |apply vP_d]. apply dmul; [apply (dscal (fun t => upd e i t (V "n_moles"))); apply is_derive_upd|].
    apply is_derive_pow, vT_d.
  - cbv beta. rewrite !vP_self, !vT_self, !upd_self. cbn [pred pow INR]. field. auto.
Qed.
Lemma gamma_d e i : smooth_at g (T_ e) -> dlnVqdlnP g e <> 0 -> pc_Cv g e <> 0 ->
  is_derive (fun t => -1 * pc_Cp g (upd e i t) / pc_Cv g (upd e i t) / dlnVqdlnP g (upd e i t)) (e i)
   (- (dCpG e i * pc_Cv g e * dlnVqdlnP g e - pc_Cp g e * (dCvG e i * dlnVqdlnP g e + pc_Cv g e * dvP i)) / (pc_Cv g e * dlnVqdlnP g e) ^ 2).
Proof.
  intros Hs Hv Hc. eapply is_derive_val.
  - apply ddiv; [rewrite vP_self; auto| |apply vP_d]. apply ddiv; [rewrite Cv_self; auto| |apply Cv_d; auto]. apply dscal_l, Cp_d; auto.
  - cbv beta. rewrite !vP_self, !Cv_self, !Cp_self. field. auto.
Qed.
(* entropy *)
Definition dS_term e i j := ind i (I "n" j) * (S0 g j (T_ e) + ln (e (V "n_moles") / nj e j / (e (V "P") / P_REF)) - 1) + nj e j * (dS0 g j (T_ e) * ind i (V "T") + ind i (V "n_moles") / e (V "n_moles") - ind i (V "P") / e (V "P")).
Lemma S_d e i : smooth_at g (T_ e) -> 0 < e (V "P") -> 0 < e (V "n_moles") -> (forall j, (j < np g)%nat -> 0 < nj e j) ->
  is_derive (fun t => R_ENG * nsum (np g) (fun j => nj (upd e i t) j * (S0 g j (T_ (upd e i t)) + ln (upd e i t (V "n_moles") / nj (upd e i t) j / (upd e i t (V "P") / P_REF))))) (e i)
    (R_ENG * nsum (np g) (dS_term e i)).
Proof.
  intros Hs HP Hm Hn. apply dscal_l. apply (is_derive_nsum (np g) (fun t j => nj (upd e i t) j * (S0 g j (T_ (upd e i t)) + ln (upd e i t (V "n_moles") / nj (upd e i t) j / (upd e i t (V "P") / P_REF))))).
  intros j Hj. specialize (Hn j Hj). assert (Hr := pref_pos). unfold nj in *. eapply is_derive_val.
  - apply dmul; [apply is_derive_upd|]. apply dplus; [apply is_derive_fun, is_derive_Reals, Hs; auto|].
    apply (dln (fun t => upd e i t (V "n_moles") / upd e i t (I "n" j) / (upd e i t (V "P") / P_REF))); [rewrite !upd_self; apply Rdiv_lt_0_compat; [apply Rdiv_lt_0_compat; auto|apply Rdiv_lt_0_compat; auto]|].
    apply ddiv; [rewrite upd_self; apply Rgt_not_eq, Rdiv_lt_0_compat; auto| |apply (dscal (fun t => upd e i t (V "P"))); apply is_derive_upd].
    apply ddiv; [rewrite upd_self; apply Rgt_not_eq; auto|apply is_derive_upd|apply is_derive_upd].
  - cbv beta. rewrite !upd_self. unfold dS_term, nj. field. lra.
Qed.
Definition calcs_dom (e : env) : Prop := smooth_at g (T_ e) /\ 0 < T_ e /\ 0 < e (V "P") /\ 0 < e (V "n_moles") /\ (forall j, (j < np g)%nat -> 0 < e (I "n" j)) /\
  dlnVqdlnP g e <> 0 /\ pc_Cv g e <> 0.
Definition no_trace (e : env) : Prop := forall j, (j < np g)%nat -> / 10 ^ 10 + / 10 ^ 20 < e (I "n" j).
Lemma rsi_pos : 0 < R_SI. Proof. unfold R_SI. lra. Qed.
Lemma reng_pos : 0 < R_ENG. Proof. unfold R_ENG. lra. Qed.
Lemma S_n_val e k : (k < np g)%nat -> 0 < e (V "P") -> 0 < e (V "n_moles") -> (forall j, (j < np g)%nat -> 0 < nj e j) ->
  nsum (np g) (dS_term e (I "n" k)) = S0 g k (T_ e) + ln (e (V "n_moles")) - ln (e (V "P") / P_REF) - ln (nj e k) - 1.
Proof.
  intros Hk HP Hm Hn. assert (Hr := pref_pos). rewrite (nsum_ext _ _ (fun j => ind (I "n" k) (I "n" j) * (S0 g j (T_ e) + ln (e (V "n_moles") / nj e j / (e (V "P") / P_REF)) - 1))).
  2: { intros j Hj. unfold dS_term. rewrite !(ind_f _ (V _)) by discriminate. unfold Rdiv. ring. }
  rewrite (nsum_ind _ _ _ (fun j => S0 g j (T_ e) + ln (e (V "n_moles") / nj e j / (e (V "P") / P_REF)) - 1)) by auto.
  rewrite !(ln_div (_ / _)); try (apply Rdiv_lt_0_compat; auto). rewrite (ln_div (e (V "n_moles"))); auto. ring.
Qed.
Lemma h_d e i : smooth_at g (T_ e) -> is_derive (fun t => nsum (np g) (nj_H0 g (upd e i t)) * R_ENG * upd e i t (V "T")) (e i)
  (dA1 e i * R_ENG * T_ e + nsum (np g) (nj_H0 g e) * R_ENG * ind i (V "T")).
Proof.
  intros Hs. eapply is_derive_val; [apply dmul; [apply (dscal (fun t => nsum (np g) (nj_H0 g (upd e i t)))); apply A1_d; auto|apply is_derive_upd]|].
  cbv beta. rewrite upd_self. f_equal. f_equal. f_equal. apply nsum_ext. intros; apply njH0_self.
Qed.
Lemma rho_d e i : 0 < T_ e -> 0 < e (V "n_moles") ->
  is_derive (fun t => upd e i t (V "P") / (upd e i t (V "n_moles") * R_SI * upd e i t (V "T")) * 100) (e i)
  (ind i (V "P") / (e (V "n_moles") * R_SI * T_ e) * 100 - e (V "P") * (ind i (V "n_moles") * R_SI * T_ e + e (V "n_moles") * R_SI * ind i (V "T")) / (e (V "n_moles") * R_SI * T_ e) ^ 2 * 100).
Proof.
  intros HT Hm. assert (Hr := rsi_pos). eapply is_derive_val.
  - apply (dscal (fun t => upd e i t (V "P") / (upd e i t (V "n_moles") * R_SI * upd e i t (V "T")))). apply ddiv.
    + rewrite !upd_self. apply Rgt_not_eq. apply Rmult_lt_0_compat; [apply Rmult_lt_0_compat; auto|auto].
    + apply is_derive_upd.
    + apply dmul; [apply (dscal (fun t => upd e i t (V "n_moles"))); apply is_derive_upd|apply is_derive_upd].
  - cbv beta. rewrite !upd_self. field. lra.
Qed.
Lemma calcs_jinit o i : jinit (decls (props_calcs g)) o i = ind o (V "R") * ind i (V "n_moles") * R_SI.
Proof.
  cbn [props_calcs decls].
  match goal with |- jinit [?a; ?b; ?c; ?d; ?x; ?y; ?z; ?w] _ _ = _ => change [a; b; c; d; x; y; z; w] with ([a; b; c; d; x; y; z] ++ [w]) end.
  rewrite jinit_snoc. rewrite jinit_zero by (intros d Hd; cbn [In] in Hd; repeat (destruct Hd as [<-|Hd]; [reflexivity|]); destruct Hd). unfold ind.
  destruct (in_dec var_eq_dec o [V "R"]) as [[<-|[]]|N1]; [|destruct (var_eq_dec o (V "R")) as [->|]; [exfalso; apply N1; left; auto|ring]].
  destruct (var_eq_dec _ _) as [_|]; [|congruence].
  destruct (in_dec var_eq_dec i [V "n_moles"]) as [[<-|[]]|N2]; [destruct (var_eq_dec _ _); [ring|congruence]|].
  destruct (var_eq_dec i (V "n_moles")) as [->|]; [exfalso; apply N2; left; auto|ring].
Qed.
(* the pair whose entry is zeroed for trace species *)
Definition trace_pair (e : env) (o i : var) : Prop := o = V "S" /\ exists k, (k < np g)%nat /\ i = I "n" k /\ e (I "n" k) <= MIN_CONC + / 10 ^ 20.
Definition dCalc (e : env) (o i : var) : R :=
  match o with V s =>
    if String.eqb s "h" then dA1 e i * R_ENG * T_ e + nsum (np g) (nj_H0 g e) * R_ENG * ind i (V "T")
    else if String.eqb s "S" then R_ENG * nsum (np g) (dS_term e i)
    else if String.eqb s "Cp" then dCpG e i else if String.eqb s "Cv" then dCvG e i
    else if String.eqb s "gamma" then - (dCpG e i * pc_Cv g e * dlnVqdlnP g e - pc_Cp g e * (dCvG e i * dlnVqdlnP g e + pc_Cv g e * dvP i)) / (pc_Cv g e * dlnVqdlnP g e) ^ 2
    else if String.eqb s "rho" then ind i (V "P") / (e (V "n_moles") * R_SI * T_ e) * 100 - e (V "P") * (ind i (V "n_moles") * R_SI * T_ e + e (V "n_moles") * R_SI * ind i (V "T")) / (e (V "n_moles") * R_SI * T_ e) ^ 2 * 100
    else R_SI * ind i (V "n_moles")
  | _ => 0 end.
Lemma calcs_outs_inv o : In o (outs (props_calcs g)) -> o = V "h" \/ o = V "S" \/ o = V "gamma" \/ o = V "Cp" \/ o = V "Cv" \/ o = V "rho" \/ o = V "R".
Proof. cbn [props_calcs outs In]. intuition auto. Qed.
Lemma dCalc_d e old o i : calcs_dom e -> In o (outs (props_calcs g)) -> is_derive (fun t => compute (props_calcs g) (upd e i t) old o) (e i) (dCalc e o i).
Proof.
  intros (Hs & HT & HP & Hm & Hn & Hv & Hc) Ho. cbn [props_calcs compute].
  assert (X : forall f, (forall t, calcs_compute g (upd e i t) old o = f t) -> is_derive f (e i) (dCalc e o i) -> is_derive (fun t => calcs_compute g (upd e i t) old o) (e i) (dCalc e o i)).
  { intros f E D. eapply is_derive_ext; [intros t; symmetry; apply E|exact D]. }
  apply calcs_outs_inv in Ho as [->|[->|[->|[->|[->|[->| ->]]]]]].
  - eapply X; [intros t; unfold calcs_compute; cbv zeta; vsimp; reflexivity|]. apply h_d; auto.
  - eapply X; [intros t; unfold calcs_compute; cbv zeta; vsimp; reflexivity|]. apply S_d; auto.
  - eapply X; [intros t; unfold calcs_compute; cbv zeta; vsimp; reflexivity|]. apply gamma_d; auto.
  - eapply X; [intros t; unfold calcs_compute; cbv zeta; vsimp; reflexivity|]. apply Cp_d; auto.
  - eapply X; [intros t; unfold calcs_compute; cbv zeta; vsimp; reflexivity|]. apply Cv_d; auto.
  - eapply X; [intros t; unfold calcs_compute; cbv zeta; vsimp; reflexivity|]. apply rho_d; auto.
  - eapply X; [intros t; unfold calcs_compute; cbv zeta; vsimp; reflexivity|]. apply dscal_l, is_derive_upd.
Qed.
Lemma dvT_o i : i <> I "result_T" (ne g) -> dvT i = 0. Proof. intros H. unfold dvT. rewrite ind_f by auto. ring. Qed.
Lemma dvP_o i : i <> I "result_P" (ne g) -> dvP i = 0. Proof. intros H. unfold dvP. rewrite ind_f by auto. ring. Qed.
Lemma dCv_o e i : dlnVqdlnP g e <> 0 -> i <> V "n_moles" -> i <> I "result_T" (ne g) -> i <> I "result_P" (ne g) -> dCvG e i = dCpG e i.
Proof. intros Hv N1 N2 N3. unfold dCvG. rewrite dvT_o, dvP_o, ind_f by auto. unfold Rdiv. ring. Qed.
Lemma dCv_rTl e : dlnVqdlnP g e <> 0 -> dCvG e (I "result_T" (ne g)) = dCv_drT_last g e.
Proof. intros Hv. unfold dCvG, dCv_drT_last. rewrite dCp_rT by auto. rewrite dvP_o, ind_f by discriminate. unfold dvT. rewrite ind_t. field. auto. Qed.
Lemma dCv_rPl e : dlnVqdlnP g e <> 0 -> dCvG e (I "result_P" (ne g)) = dCv_drP_last g e.
Proof. intros Hv. unfold dCvG, dCv_drP_last. rewrite dCp_other by discriminate. rewrite dvT_o, ind_f by discriminate. unfold dvP. rewrite ind_t. field. auto. Qed.
Lemma dCv_nm e : dlnVqdlnP g e <> 0 -> dCvG e (V "n_moles") = dCv_dnm g e.
Proof. intros Hv. unfold dCvG, dCv_dnm. rewrite dCp_other by discriminate. rewrite dvT_o, dvP_o, ind_t by discriminate. field. auto. Qed.
Lemma dA1_T e : dA1 e (V "T") = nsum (np g) (fun j => nj e j * dH0 g j (T_ e)).
Proof. unfold dA1. rewrite ind_t, nsum_ind0 by discriminate. ring. Qed.
Lemma dA1_n e k : (k < np g)%nat -> dA1 e (I "n" k) = h0 g e k.
Proof. intros Hk. unfold dA1. rewrite (nsum_ind _ _ _ (h0 g e)), ind_f by (auto; discriminate). ring. Qed.
Lemma dA1_o e i : i <> V "T" -> (forall k, i <> I "n" k) -> dA1 e i = 0.
Proof. intros H H2. unfold dA1. rewrite nsum_ind0, ind_f by auto. ring. Qed.
Lemma dS_T e : nsum (np g) (dS_term e (V "T")) = nsum (np g) (fun j => nj e j * dS0 g j (T_ e)).
Proof. apply nsum_ext. intros j Hj. unfold dS_term. rewrite ind_t. rewrite !ind_f by discriminate. unfold Rdiv. ring. Qed.
Lemma dS_P e : nsum (np g) (dS_term e (V "P")) = - nsum (np g) (fun j => nj e j / e (V "P")).
Proof.
  replace (- nsum (np g) (fun j => nj e j / e (V "P"))) with (-1 * nsum (np g) (fun j => nj e j / e (V "P"))) by ring. rewrite <- nsum_scal.
  apply nsum_ext. intros j Hj. unfold dS_term. rewrite ind_t. rewrite !ind_f by discriminate. unfold Rdiv. ring.
Qed.
Lemma dS_m e : nsum (np g) (dS_term e (V "n_moles")) = nsum (np g) (nj e) / e (V "n_moles").
Proof.
  unfold Rdiv. rewrite <- nsum_scal_r. apply nsum_ext. intros j Hj. unfold dS_term. rewrite ind_t. rewrite !ind_f by discriminate. unfold Rdiv. ring.
Qed.
Lemma dS_o e i : i <> V "T" -> i <> V "P" -> i <> V "n_moles" -> (forall k, i <> I "n" k) -> nsum (np g) (dS_term e i) = 0.
Proof. intros. unfold nsum. apply lsum_0. intros j _. unfold dS_term. rewrite !ind_f by auto. unfold Rdiv. ring. Qed.
Lemma neq_I s a b : a <> b -> I s a <> I s b. Proof. congruence. Qed.
Ltac eqs2 := cbn [String.eqb Ascii.eqb Bool.eqb andb].
Lemma calcs_match e o i : calcs_dom e -> In o (outs (props_calcs g)) -> In i (ins (props_calcs g)) -> ~ trace_pair e o i ->
  (forall J, partials (props_calcs g) e J o i = dCalc e o i) \/
  ((forall e J, partials (props_calcs g) e J o i = J o i) /\ jinit (decls (props_calcs g)) o i = dCalc e o i).
Proof.
  intros (Hs & HT & HP & Hm & Hn & Hv & Hc) Ho Hi Htr. cbn [props_calcs partials]. rewrite calcs_jinit. assert (Hsi := rsi_pos).
  assert (Ppos : 0 < e (V "n_moles") * R_SI * T_ e) by (apply Rmult_lt_0_compat; [apply Rmult_lt_0_compat; auto|auto]).
  apply calcs_ins_inv in Hi. apply calcs_outs_inv in Ho as [->|[->|[->|[->|[->|[->| ->]]]]]]; unfold dCalc; eqs2.
  - (* h *) rewrite (ind_f _ (V "R")) by discriminate.
    destruct Hi as [->|[->|[(k & Hk & ->)|[->|[(k & Hk & ->)|(k & Hk & ->)]]]]].
    + left. intros J. unfold calcs_partials. eqs2. rewrite dA1_T, ind_t. unfold nj_H0. ring.
    + right. split; [intros; reflexivity|]. rewrite dA1_o, !ind_f by discriminate. ring.
    + left. intros J. unfold calcs_partials. eqs2. rewrite (ltb_t _ _ Hk), dA1_n, ind_f by (auto; discriminate). ring.
    + right. split; [intros; reflexivity|]. rewrite dA1_o, ind_t, !ind_f by discriminate. ring.
    + right. split; [intros; reflexivity|]. rewrite dA1_o, !ind_f by discriminate. ring.
    + right. split; [intros; reflexivity|]. rewrite dA1_o, !ind_f by discriminate. ring.
  - (* S *) rewrite (ind_f _ (V "R")) by discriminate.
    destruct Hi as [->|[->|[(k & Hk & ->)|[->|[(k & Hk & ->)|(k & Hk & ->)]]]]].
    + left. intros J. unfold calcs_partials. eqs2. rewrite dS_T. reflexivity.
    + left. intros J. unfold calcs_partials. eqs2. rewrite dS_P. ring.
    + left. intros J. unfold calcs_partials. eqs2. rewrite (ltb_t _ _ Hk), S_n_val by auto.
      destruct (Rle_dec (nj e k) (MIN_CONC + / 10 ^ 20)) as [L|L]; [|reflexivity]. exfalso. apply Htr. split; [auto|]. exists k. auto.
    + left. intros J. unfold calcs_partials. eqs2. rewrite dS_m. unfold Rdiv. ring.
    + right. split; [intros; reflexivity|]. rewrite dS_o by discriminate. ring.
    + right. split; [intros; reflexivity|]. rewrite dS_o by discriminate. ring.
  - (* gamma *) rewrite (ind_f _ (V "R")) by discriminate.
    destruct Hi as [->|[->|[(k & Hk & ->)|[->|[(k & Hk & ->)|(k & Hk & ->)]]]]].
    + left. intros J. unfold calcs_partials. eqs2. rewrite dCv_o, dCp_T, dvP_o by (auto; discriminate). field. auto.
    + right. split; [intros; reflexivity|]. rewrite dCv_o, dCp_other, dvP_o by (auto; discriminate). field. auto.
    + left. intros J. unfold calcs_partials. eqs2. rewrite (ltb_t _ _ Hk). rewrite dCv_o, dCp_n, dvP_o by (auto; discriminate). field. auto.
    + left. intros J. unfold calcs_partials. eqs2. rewrite dCv_nm, dCp_other, dvP_o by (auto; discriminate). field. auto.
    + left. intros J. unfold calcs_partials. eqs2. rewrite (ltb_t k (S (ne g))) by lia. destruct (Nat.eqb_spec k (ne g)) as [->|Nk].
      * rewrite dCv_rTl, dCp_rT, dvP_o by (auto; discriminate). field. auto.
      * rewrite dCv_o, dCp_rT, dvP_o by (auto using neq_I; discriminate). field. auto.
    + left. intros J. unfold calcs_partials. eqs2. rewrite (ltb_t k (S (ne g))) by lia. destruct (Nat.eqb_spec k (ne g)) as [->|Nk].
      * rewrite dCv_rPl, dCp_other by (auto; discriminate). unfold dvP. rewrite ind_t. field. auto.
      * rewrite dCv_o, dCp_other, dvP_o by (auto using neq_I; discriminate). field. auto.
  - (* Cp *) rewrite (ind_f _ (V "R")) by discriminate.
    destruct Hi as [->|[->|[(k & Hk & ->)|[->|[(k & Hk & ->)|(k & Hk & ->)]]]]].
    + left. intros J. unfold calcs_partials. eqs2. rewrite dCp_T. reflexivity.
    + right. split; [intros; reflexivity|]. rewrite dCp_other by discriminate. ring.
    + left. intros J. unfold calcs_partials. eqs2. rewrite (ltb_t _ _ Hk), dCp_n by auto. reflexivity.
    + right. split; [intros; reflexivity|]. rewrite dCp_other by discriminate. ring.
    + left. intros J. unfold calcs_partials. eqs2. rewrite (ltb_t k (S (ne g))), dCp_rT by lia. reflexivity.
    + right. split; [intros; reflexivity|]. rewrite dCp_other by discriminate. ring.
  - (* Cv *) rewrite (ind_f _ (V "R")) by discriminate.
    destruct Hi as [->|[->|[(k & Hk & ->)|[->|[(k & Hk & ->)|(k & Hk & ->)]]]]].
    + left. intros J. unfold calcs_partials. eqs2. rewrite dCv_o, dCp_T by (auto; discriminate). reflexivity.
    + right. split; [intros; reflexivity|]. rewrite dCv_o, dCp_other by (auto; discriminate). ring.
    + left. intros J. unfold calcs_partials. eqs2. rewrite (ltb_t _ _ Hk). rewrite dCv_o, dCp_n by (auto; discriminate). reflexivity.
    + left. intros J. unfold calcs_partials. eqs2. rewrite dCv_nm by (auto; discriminate). reflexivity.
    + left. intros J. unfold calcs_partials. eqs2. rewrite (ltb_t k (S (ne g))) by lia. destruct (Nat.eqb_spec k (ne g)) as [->|Nk].
      * rewrite dCv_rTl by auto. reflexivity.
      * rewrite dCv_o, dCp_rT by (auto using neq_I; discriminate). reflexivity.
    + left. intros J. unfold calcs_partials. eqs2. rewrite (ltb_t k (S (ne g))) by lia. destruct (Nat.eqb_spec k (ne g)) as [->|Nk].
      * rewrite dCv_rPl by auto. reflexivity.
      * rewrite dCv_o, dCp_other by (auto using neq_I; discriminate). reflexivity.
  - (* rho *) rewrite (ind_f _ (V "R")) by discriminate.
    destruct Hi as [->|[->|[(k & Hk & ->)|[->|[(k & Hk & ->)|(k & Hk & ->)]]]]].
    + left. intros J. unfold calcs_partials. eqs2. rewrite ind_t. rewrite !ind_f by discriminate. field. lra.
    + left. intros J. unfold calcs_partials. eqs2. rewrite ind_t. rewrite !ind_f by discriminate. field. lra.
    + right. split; [intros; reflexivity|]. rewrite !ind_f by discriminate. field. lra.
    + left. intros J. unfold calcs_partials. eqs2. rewrite ind_t. rewrite !ind_f by discriminate. field. lra.
    + right. split; [intros; reflexivity|]. rewrite !ind_f by discriminate. field. lra.
    + right. split; [intros; reflexivity|]. rewrite !ind_f by discriminate. field. lra.
  - (* R *) right. split; [intros; destruct Hi as [->|[->|[(k & Hk & ->)|[->|[(k & Hk & ->)|(k & Hk & ->)]]]]]; reflexivity|]. rewrite ind_t. ring.
Qed.
Lemma calcs_value hist e old o i : calcs_dom e -> In o (outs (props_calcs g)) -> In i (ins (props_calcs g)) -> ~ trace_pair e o i ->
  derivable_pt_lim (fun t => compute (props_calcs g) (upd e i t) old o) (e i) (jac_after (props_calcs g) hist e o i).
Proof.
  intros Hd Ho Hi Ht. apply is_derive_Reals. eapply is_derive_val; [apply dCalc_d; auto|].
  destruct (calcs_match e o i Hd Ho Hi Ht) as [H|[H1 H2]]; [symmetry; apply H|].
  unfold jac_after. rewrite H1, <- H2. symmetry. apply (fold_skip (fun J e' => partials (props_calcs g) e' J) (fun J : jac => J o i)). intros. apply H1.
Qed.
Lemma calcs_trace hist e i : trace_pair e (V "S") i -> jac_after (props_calcs g) hist e (V "S") i = 0.
Proof.
  intros (_ & k & Hk & -> & L). unfold jac_after. cbn [props_calcs partials]. unfold calcs_partials. eqs2. rewrite (ltb_t _ _ Hk).
  destruct (Rle_dec (nj e k) _) as [_|N]; [reflexivity|]. exfalso. apply N. exact L.
Qed.
Lemma calcs_declared_ok : jac_declared (props_calcs g).
Proof.
  intros e J o i Hn. cbn [props_calcs partials decls] in *. unfold calcs_partials, declares in *. destruct o as [s|s a|u s|s a b]; try reflexivity.
  assert (D : forall is w, In ([V s], is, w) (decls (props_calcs g)) -> ~ In i is).
  { intros is w H1 H2. apply Hn. exists [V s], is, w. cbn [props_calcs decls] in H1. split; [exact H1|]. split; [left; auto|auto]. }
  cbn [props_calcs decls In] in D.
  assert (VT : forall k, (k < np g)%nat -> In (I "n" k) (v_n g)) by (intros; apply in_map, in_seq0; auto).
  assert (VR : forall k, (k < S (ne g))%nat -> In (I "result_T" k) (v_rT g)) by (intros; apply in_map, in_seq0; auto).
  assert (VP : forall k, (k < S (ne g))%nat -> In (I "result_P" k) (v_rP g)) by (intros; apply in_map, in_seq0; auto).
  Ltac kill D is w := exfalso; apply (D is w); [tauto|rewrite ?in_app_iff; cbn [In]; auto 8].
  destruct (String.eqb_spec s "h") as [->|N1].
  { destruct i as [t|t k| |]; try reflexivity.
    - destruct (String.eqb_spec t "T") as [->|]; [|reflexivity]. kill D (v_n g ++ [V "T"]) 0.
    - destruct (String.eqb_spec t "n") as [->|]; [|reflexivity]. destruct (Nat.ltb_spec k (np g)); [|reflexivity]. kill D (v_n g ++ [V "T"]) 0. }
  destruct (String.eqb_spec s "S") as [->|N2].
  { destruct i as [t|t k| |]; try reflexivity.
    - destruct (String.eqb_spec t "T") as [->|]; [kill D (v_n g ++ [V "T"; V "P"]) 0|]. destruct (String.eqb_spec t "P") as [->|]; [kill D (v_n g ++ [V "T"; V "P"]) 0|].
      destruct (String.eqb_spec t "n_moles") as [->|]; [|reflexivity]. kill D [V "n_moles"] 0.
    - destruct (String.eqb_spec t "n") as [->|]; [|reflexivity]. destruct (Nat.ltb_spec k (np g)); [|reflexivity]. kill D (v_n g ++ [V "T"; V "P"]) 0. }
  destruct (String.eqb_spec s "rho") as [->|N3].
  { destruct i as [t|t k| |]; try reflexivity.
    destruct (String.eqb_spec t "T") as [->|]; [kill D [V "T"; V "P"; V "n_moles"] 0|]. destruct (String.eqb_spec t "n_moles") as [->|]; [kill D [V "T"; V "P"; V "n_moles"] 0|].
    destruct (String.eqb_spec t "P") as [->|]; [kill D [V "T"; V "P"; V "n_moles"] 0|reflexivity]. }
  destruct (String.eqb_spec s "Cp") as [->|N4].
  { destruct i as [t|t k| |]; try reflexivity.
    - destruct (String.eqb_spec t "T") as [->|]; [|reflexivity]. kill D (v_n g ++ [V "T"] ++ v_rT g) 0.
    - destruct (String.eqb_spec t "n") as [->|]; [|destruct (String.eqb_spec t "result_T") as [->|]; [|reflexivity]]; cbn [andb String.eqb Ascii.eqb Bool.eqb].
      + destruct (Nat.ltb_spec k (np g)); [|reflexivity]. kill D (v_n g ++ [V "T"] ++ v_rT g) 0.
      + destruct (Nat.ltb_spec k (S (ne g))); [|reflexivity]. kill D (v_n g ++ [V "T"] ++ v_rT g) 0. }
  Ltac last_two D g k t := destruct (String.eqb_spec t "n") as [->|]; [|destruct (String.eqb_spec t "result_T") as [->|]; [|destruct (String.eqb_spec t "result_P") as [->|]; [|reflexivity]]]; cbn [andb String.eqb Ascii.eqb Bool.eqb];
    [destruct (Nat.ltb_spec k (np g)); [|reflexivity]|destruct (Nat.ltb_spec k (S (ne g))); [|reflexivity]|destruct (Nat.ltb_spec k (S (ne g))); [|reflexivity]]; kill D (v_n g ++ [V "n_moles"; V "T"] ++ v_rT g ++ v_rP g) 0.
  destruct (String.eqb_spec s "Cv") as [->|N5].
  { destruct i as [t|t k| |]; try reflexivity.
    - destruct (String.eqb_spec t "n_moles") as [->|]; [kill D (v_n g ++ [V "n_moles"; V "T"] ++ v_rT g ++ v_rP g) 0|]. destruct (String.eqb_spec t "T") as [->|]; [|reflexivity]. kill D (v_n g ++ [V "n_moles"; V "T"] ++ v_rT g ++ v_rP g) 0.
    - last_two D g k t. }
  destruct (String.eqb_spec s "gamma") as [->|N6]; [|reflexivity].
  destruct i as [t|t k| |]; try reflexivity.
    - destruct (String.eqb_spec t "n_moles") as [->|]; [kill D (v_n g ++ [V "n_moles"; V "T"] ++ v_rT g ++ v_rP g) 0|]. destruct (String.eqb_spec t "T") as [->|]; [|reflexivity]. kill D (v_n g ++ [V "n_moles"; V "T"] ++ v_rT g ++ v_rP g) 0.
    - last_two D g k t.
Qed.
Lemma calcs_writes : writes_all (props_calcs g).
Proof.
  intros e e' old old' o Ho He.
  assert (K : forall i, In i (ins (props_calcs g)) -> e i = e' i) by exact He.
  assert (ET : e (V "T") = e' (V "T")) by (apply K; cbn [props_calcs ins app In]; auto).
  assert (EP : e (V "P") = e' (V "P")) by (apply K; cbn [props_calcs ins app In]; auto).
  assert (EM : e (V "n_moles") = e' (V "n_moles")) by (apply K; cbn [props_calcs ins]; rewrite !in_app_iff; cbn [In]; auto 6).
  assert (EN : forall k, (k < np g)%nat -> nj e k = nj e' k) by (intros k Hk; apply K; cbn [props_calcs ins]; rewrite !in_app_iff; right; left; apply in_map, in_seq0; auto).
  assert (ER : forall k, (k <= ne g)%nat -> rT e k = rT e' k) by (intros k Hk; apply K; cbn [props_calcs ins]; rewrite !in_app_iff; right; right; right; left; apply in_map, in_seqS; auto).
  assert (EQ : forall k, (k <= ne g)%nat -> e (I "result_P" k) = e' (I "result_P" k)) by (intros k Hk; apply K; cbn [props_calcs ins]; rewrite !in_app_iff; right; right; right; right; apply in_map, in_seqS; auto).
  assert (Eh : forall j, (j < np g)%nat -> h0 g e j = h0 g e' j) by (intros; unfold h0; rewrite ET; auto).
  assert (EnH : forall j, (j < np g)%nat -> nj_H0 g e j = nj_H0 g e' j) by (intros; unfold nj_H0; rewrite EN, Eh by auto; auto).
  assert (EvP : dlnVqdlnP g e = dlnVqdlnP g e') by (unfold dlnVqdlnP; rewrite EQ by auto; auto).
  assert (EvT : dlnVqdlnT g e = dlnVqdlnT g e') by (unfold dlnVqdlnT; rewrite ER by auto; auto).
  assert (ECp : pc_Cp g e = pc_Cp g e').
  { unfold pc_Cp, Cpe, Cpf. f_equal. f_equal; [f_equal; [f_equal; [f_equal|]|f_equal]|]; rewrite ?ET.
    - apply nsum_ext. intros a Ha. rewrite ER by lia. f_equal. apply nsum_ext. intros; rewrite EnH; auto.
    - apply nsum_ext. intros. rewrite EnH, Eh; auto.
    - apply nsum_ext. auto.
    - apply ER. auto.
    - apply nsum_ext. intros. rewrite EN; auto. }
  assert (ECv : pc_Cv g e = pc_Cv g e') by (unfold pc_Cv; rewrite ECp, EM, EvT, EvP; auto).
  cbn [props_calcs compute]. unfold calcs_compute.
  apply calcs_outs_inv in Ho as [->|[->|[->|[->|[->|[->| ->]]]]]]; cbv zeta; vsimp; rewrite ?ET, ?EP, ?EM, ?ECp, ?ECv, ?EvP; auto.
  - f_equal. f_equal. apply nsum_ext. auto.
  - f_equal. apply nsum_ext. intros. rewrite !EN by auto. reflexivity.
Qed.
End CALCS.
