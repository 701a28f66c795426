(* Generic facts about the traversal of an arbitrary graph. *)
From Verif Require Import Lib_Py.
From Verif Require Import Model_Graph.
From Coq Require Import Relations.

Lemma in_preds g p n : In p (preds g n) <-> In (p, n) (g_edges g).
Proof.
  unfold preds. rewrite in_map_iff. split.
  - intros [[a b] [H1 H2]]. apply filter_In in H2 as [H2 H3]. simpl in *. seqb. subst; auto.
  - intros H. exists (p, n). split; auto. apply filter_In. simpl. rewrite String.eqb_refl; auto.
Qed.
Lemma in_succs g n s : In s (succs g n) <-> In (n, s) (g_edges g).
Proof.
  unfold succs. rewrite in_map_iff. split.
  - intros [[a b] [H1 H2]]. apply filter_In in H2 as [H2 H3]. simpl in *. seqb. subst; auto.
  - intros H. exists (n, s). split; auto. apply filter_In. simpl. rewrite String.eqb_refl; auto.
Qed.

Lemma filter_len_le {A} (f : A -> bool) l : List.length (filter f l) <= List.length l.
Proof. induction l as [|a l IH]; simpl; [lia|]. destruct (f a); simpl; lia. Qed.

Lemma filter_mono {A} (f h : A -> bool) l :
  (forall x, In x l -> f x = true -> h x = true) ->
  List.length (filter f l) <= List.length (filter h l).
Proof.
  induction l as [|a l IH]; simpl; intros H; [lia|].
  assert (List.length (filter f l) <= List.length (filter h l)) by (apply IH; intros; apply H; auto).
  pose proof (H a (or_introl eq_refl)).
  destruct (f a) eqn:E1; destruct (h a) eqn:E2; simpl; try lia.
Qed.
Lemma filter_mono_strict {A} (f h : A -> bool) l x :
  (forall x, In x l -> f x = true -> h x = true) -> In x l -> f x = false -> h x = true ->
  List.length (filter f l) < List.length (filter h l).
Proof.
  induction l as [|a l IH]; simpl; intros H Hx Hf Hh; [tauto|].
  destruct Hx as [->|Hx].
  - rewrite Hf, Hh. simpl.
    assert (List.length (filter f l) <= List.length (filter h l)) by (apply filter_mono; intros; apply H; auto).
    lia.
  - assert (List.length (filter f l) < List.length (filter h l)) by (apply IH; auto).
    pose proof (H a (or_introl eq_refl)).
    destruct (f a) eqn:E1; destruct (h a) eqn:E2; simpl; try lia.
Qed.

(* ---------- levels: the part of the graph that has acyclic ancestry -------- *)
Section Levels.
Variable g : graph.

Fixpoint lev (k : nat) (x : string) : bool :=
  match k with
  | O => false
  | S k => forallb (lev k) (preds g x)
  end.

Lemma lev_mono k x : lev k x = true -> lev (S k) x = true.
Proof.
  revert x. induction k as [|k IH]; intros x H; [discriminate|].
  cbn [lev] in *. rewrite forallb_forall in *. intros p Hp. apply IH. apply H, Hp.
Qed.
Lemma lev_mono_le k m x : k <= m -> lev k x = true -> lev m x = true.
Proof. induction 1; auto. intros. apply lev_mono; auto. Qed.

Definition srcs := map fst (g_edges g).

Lemma preds_srcs x p : In p (preds g x) -> In p srcs.
Proof. rewrite in_preds. intros H. unfold srcs. apply in_map_iff. exists (p, x); auto. Qed.

Definition stable k := forall x, lev (S k) x = true -> lev k x = true.

Lemma stable_S k : (forall x, In x srcs -> lev (S k) x = true -> lev k x = true) -> stable (S k).
Proof.
  intros H x Hx. cbn [lev] in Hx |- *. rewrite forallb_forall in *. intros p Hp.
  apply H. eapply preds_srcs; eauto. apply Hx, Hp.
Qed.

Lemma stable_or_count k :
  (exists j, j <= k /\ forall x, In x srcs -> lev (S j) x = true -> lev j x = true)
  \/ k < List.length (filter (lev (S k)) srcs).
Proof.
  assert (dec : forall j, (forall x, In x srcs -> lev (S j) x = true -> lev j x = true) \/
     exists x, In x srcs /\ lev (S j) x = true /\ lev j x = false).
  { intros j. induction srcs as [|a l IH].
    - left; simpl; tauto.
    - destruct IH as [IH|[x [H1 [H2 H3]]]].
      + destruct (lev (S j) a) eqn:E1; destruct (lev j a) eqn:E2.
        * left. intros x [->|Hx]; auto.
        * right. exists a; simpl; auto.
        * left. intros x [->|Hx]; auto.
        * left. intros x [->|Hx]; auto; congruence.
      + right. exists x; simpl; auto. }
  induction k as [|k IH].
  - destruct (dec 0) as [H|[x [H1 [H2 H3]]]].
    + left. exists 0. split; auto.
    + right. assert (In x (filter (lev 1) srcs)) by (apply filter_In; auto).
      destruct (filter (lev 1) srcs); simpl in *; [tauto|lia].
  - destruct IH as [[j [Hj H]]|IH].
    + left; exists j; split; auto.
    + destruct (dec (S k)) as [H|[x [H1 [H2 H3]]]].
      * left; exists (S k); split; auto.
      * right. assert (List.length (filter (lev (S k)) srcs) < List.length (filter (lev (S (S k))) srcs)).
        { eapply filter_mono_strict; eauto. intros; apply lev_mono; auto. }
        lia.
Qed.

Lemma stable_exists : exists N, stable N.
Proof.
  destruct (stable_or_count (List.length srcs)) as [[j [_ H]]|H].
  - exists (S j). apply stable_S, H.
  - pose proof (filter_len_le (lev (S (List.length srcs))) srcs). lia.
Qed.

Lemma stable_ge N m x : stable N -> lev m x = true -> lev N x = true.
Proof.
  intros Hs. destruct (Nat.le_gt_cases m N) as [Hle|Hgt].
  - apply lev_mono_le; auto.
  - revert x. induction m as [|m IHm]; [lia|].
    intros x Hm. destruct (Nat.eq_dec m N) as [->|Hne].
    + apply Hs; auto.
    + apply Hs. cbn [lev] in Hm |- *. rewrite forallb_forall in *.
      intros p Hp. apply IHm; [lia|]. apply Hm, Hp.
Qed.

(* ---------- weights ---------- *)
Section Weights.
Variable N : nat.
Hypothesis HN : stable N.
Definition hgt (x : string) : nat := List.length (filter (fun k => lev k x) (seq 0 (S N))).
Definition deg := List.length (g_edges g).
Definition wgt (x : string) : nat := Nat.pow (S deg) (hgt x).
Definition wgts (l : list string) : nat := fold_right (fun x acc => wgt x + acc) 0 l.

Lemma wgt_pos x : 1 <= wgt x.
Proof. unfold wgt. apply Nat.neq_0_lt_0, Nat.pow_nonzero, Nat.neq_succ_0. Qed.
Lemma wgts_app a b : wgts (a ++ b) = wgts a + wgts b.
Proof. induction a; simpl; auto. rewrite IHa; lia. Qed.

Lemma hgt_count_shift k s x :
  In x (preds g s) ->
  List.length (filter (fun k => lev k s) (seq 0 (S k))) <= List.length (filter (fun k => lev k x) (seq 0 k)).
Proof.
  intros Hp. induction k as [|k IH]; [simpl; lia|].
  assert (E1 : forall f, filter f (seq 0 (S (S k))) = filter f (seq 0 (S k)) ++ filter f [S k])
    by (intros f; rewrite (seq_S (S k) 0), filter_app; reflexivity).
  assert (E2 : forall f, filter f (seq 0 (S k)) = filter f (seq 0 k) ++ filter f [k])
    by (intros f; rewrite (seq_S k 0), filter_app; reflexivity).
  rewrite E1. rewrite (E2 (fun k => lev k x)). rewrite !app_length.
  cbn [filter]. destruct (lev (S k) s) eqn:E.
  - assert (lev k x = true) as ->.
    { cbn [lev] in E. rewrite forallb_forall in E. apply E, Hp. }
    cbn [List.length]. lia.
  - cbn [List.length]. lia.
Qed.

Lemma hgt_succ x s : lev N x = true -> In s (succs g x) -> S (hgt s) <= hgt x.
Proof.
  intros HL Hs. rewrite in_succs, <- in_preds in Hs. unfold hgt.
  pose proof (hgt_count_shift N s x Hs).
  assert (E2 : forall f, filter f (seq 0 (S N)) = filter f (seq 0 N) ++ filter f [N])
    by (intros f; rewrite (seq_S N 0), filter_app; reflexivity).
  rewrite (E2 (fun k => lev k x)), app_length. cbn [filter].
  rewrite HL. cbn [List.length]. lia.
Qed.

Lemma wgts_succs x : lev N x = true -> wgts (succs g x) < wgt x.
Proof.
  intros HL.
  assert (Hlen : List.length (succs g x) <= deg).
  { unfold succs. rewrite map_length. apply filter_len_le. }
  destruct (succs g x) as [|s0 r0] eqn:Es.
  - simpl. pose proof (wgt_pos x). lia.
  - rewrite <- Es in *. assert (Hh : 1 <= hgt x).
    { pose proof (hgt_succ x s0 HL). rewrite Es in H. specialize (H (or_introl eq_refl)). lia. }
    assert (Hb : wgts (succs g x) <= List.length (succs g x) * Nat.pow (S deg) (hgt x - 1)).
    { assert (Hall : forall s, In s (succs g x) -> S (hgt s) <= hgt x) by (intros; apply hgt_succ; auto).
      clear Es Hlen. induction (succs g x) as [|s l IH]; simpl; [lia|].
      assert (wgt s <= Nat.pow (S deg) (hgt x - 1)).
      { unfold wgt. apply Nat.pow_le_mono_r; [lia|]. pose proof (Hall s (or_introl eq_refl)). lia. }
      specialize (IH (fun t Ht => Hall t (or_intror Ht))). lia. }
    unfold wgt at 1. replace (hgt x) with (S (hgt x - 1)) by lia. rewrite Nat.pow_succ_r'.
    assert (1 <= Nat.pow (S deg) (hgt x - 1)).
    { apply Nat.neq_0_lt_0, Nat.pow_nonzero, Nat.neq_succ_0. }
    assert (List.length (succs g x) * Nat.pow (S deg) (hgt x - 1) <= deg * Nat.pow (S deg) (hgt x - 1))
      by (apply Nat.mul_le_mono_r; auto).
    lia.
Qed.
End Weights.

(* ---------- levels versus cycles ---------- *)
Definition edge (a b : string) : Prop := In (a, b) (g_edges g).

Lemma unlev_pred N x : stable N -> lev N x = false -> exists p, edge p x /\ lev N p = false.
Proof.
  intros HS H. assert (lev (S N) x = false) as H'.
  { destruct (lev (S N) x) eqn:E; auto. apply HS in E. congruence. }
  cbn [lev] in H'.
  assert (exists p, In p (preds g x) /\ lev N p = false) as [p [H1 H2]].
  { clear H. induction (preds g x) as [|a l IH]; simpl in *; [discriminate|].
    destruct (lev N a) eqn:E.
    - simpl in H'. destruct (IH H') as [p [? ?]]. exists p; auto.
    - exists a; auto. }
  exists p. split; auto. unfold edge. apply in_preds; auto.
Qed.

(* backward chain: l = [x_m; ...; x_0], consecutive edges x_{i+1} -> x_i *)
Fixpoint chain (l : list string) : Prop :=
  match l with
  | a :: ((b :: _) as r) => edge a b /\ chain r
  | _ => True
  end.

Lemma chain_reach a l x : chain (a :: l) -> In x l -> clos_trans _ edge a x.
Proof.
  revert a. induction l as [|b r IH]; simpl; [tauto|].
  intros a [H1 H2] [->|Hx].
  - apply t_step; auto.
  - eapply t_trans; [apply t_step; eauto|]. apply IH; auto.
Qed.
Lemma chain_tail a l : chain (a :: l) -> chain l.
Proof. destruct l; simpl; tauto. Qed.

Lemma chain_exists N x m : stable N -> lev N x = false ->
  exists l a, chain (a :: l) /\ List.length l = m /\ lev N a = false /\ last (a :: l) "" = x.
Proof.
  intros HS H. induction m as [|m IH].
  - exists [], x. simpl; auto.
  - destruct IH as [l [a [H1 [H2 [H3 H4]]]]].
    destruct (unlev_pred N a HS H3) as [p [Hp Hl]].
    exists (a :: l), p. split; [|split; [|split]]; simpl; auto.
Qed.

Lemma not_nodup_split (l : list string) : ~ NoDup l -> exists l1 x l2 l3, l = l1 ++ x :: l2 ++ x :: l3.
Proof.
  induction l as [|a l IH]; intros H.
  - exfalso; apply H; constructor.
  - destruct (in_dec string_dec a l) as [Hi|Hi].
    + apply in_split in Hi as [l2 [l3 ->]]. exists [], a, l2, l3; auto.
    + destruct IH as [l1 [x [l2 [l3 E]]]].
      { intros Hn. apply H. constructor; auto. }
      subst l. exists (a :: l1), x, l2, l3. reflexivity.
Qed.

Lemma chain_app l1 x l2 : chain (l1 ++ x :: l2) -> chain (x :: l2).
Proof.
  induction l1 as [|a l1 IH]; simpl; auto.
  intros H. apply IH. destruct (l1 ++ x :: l2) eqn:E; [destruct l1; discriminate|]. tauto.
Qed.

Lemma last_cons_In (a : string) l d : In (last (a :: l) d) (a :: l).
Proof. revert a. induction l as [|b l IH]; intros a; simpl; auto. right. apply (IH b). Qed.

Lemma chain_srcs a l : chain (a :: l) -> incl (removelast (a :: l)) srcs.
Proof.
  revert a. induction l as [|b l IH]; intros a Hc y Hy; simpl in Hy; [tauto|].
  destruct Hc as [H1 H2]. destruct Hy as [->|Hy].
  - unfold srcs. apply in_map_iff. exists (y, b); auto.
  - apply (IH b H2 y Hy).
Qed.

Lemma last_app_cons l1 (x : string) l2 d : last (l1 ++ x :: l2) d = last (x :: l2) d.
Proof. induction l1 as [|a l1 IH]; auto. simpl. rewrite IH. destruct (l1 ++ x :: l2) eqn:E; auto. destruct l1; discriminate. Qed.

(* a node without a level has a cycle among its ancestors *)
Lemma unlev_cycle N x : stable N -> lev N x = false ->
  exists y, clos_trans _ edge y y /\ clos_refl_trans _ edge y x.
Proof.
  intros HS H.
  destruct (chain_exists N x (S (List.length srcs)) HS H) as [l [a [H1 [H2 [H3 H4]]]]].
  assert (Hnd : ~ NoDup (removelast (a :: l))).
  { intros Hn. pose proof (NoDup_incl_length Hn (chain_srcs a l H1)) as Hl.
    assert (List.length (removelast (a :: l)) = List.length l).
    { clear. revert a. induction l as [|b l IH]; intros a; auto.
      change (S (List.length (removelast (b :: l))) = S (List.length l)). now rewrite IH. }
    lia. }
  destruct (not_nodup_split _ Hnd) as [l1 [y [l2 [l3 E]]]].
  assert (Efull : a :: l = removelast (a :: l) ++ [last (a :: l) ""]) by (apply app_removelast_last; discriminate).
  rewrite E, H4 in Efull. rewrite Efull in H1.
  replace ((l1 ++ y :: l2 ++ y :: l3) ++ [x]) with (l1 ++ y :: (l2 ++ y :: l3 ++ [x])) in H1
    by (rewrite <- app_assoc; cbn [app]; rewrite <- app_assoc; reflexivity).
  apply chain_app in H1.
  exists y. split.
  - eapply chain_reach. exact H1. apply in_or_app; right. left; auto.
  - assert (clos_trans _ edge y x) as Ht.
    { eapply chain_reach. exact H1. apply in_or_app; right. right. apply in_or_app; right. left; auto. }
    clear -Ht. induction Ht; [apply rt_step; auto|eapply rt_trans; eauto].
Qed.

(* conversely a level excludes cycles among ancestors *)
Lemma lev_anc k x y : lev k x = true -> clos_trans _ edge y x -> exists j, j < k /\ lev j y = true.
Proof.
  revert x. induction k as [k IH] using lt_wf_ind; intros x H Ht.
  apply clos_trans_tn1 in Ht. destruct Ht as [w Hs|z w Hz Ht].
  - destruct k; [discriminate|]. exists k. split; auto. cbn [lev] in H.
    rewrite forallb_forall in H. apply H. apply in_preds, Hs.
  - destruct k; [discriminate|]. cbn [lev] in H. rewrite forallb_forall in H.
    assert (lev k z = true) as Hk by (apply H, in_preds, Hz).
    destruct (IH k (Nat.lt_succ_diag_r k) z Hk (clos_tn1_trans _ _ _ _ Ht)) as [j [Hj Hy]].
    exists j; split; auto.
Qed.
Lemma lev_acyclic k x : lev k x = true -> ~ clos_trans _ edge x x.
Proof.
  revert x. induction k as [k IH] using lt_wf_ind; intros x H Ht.
  destruct (lev_anc k x x H Ht) as [j [Hj Hx]]. exact (IH j Hj x Hx Ht).
Qed.
Lemma lev_no_cyclic_ancestor k x y :
  lev k x = true -> clos_refl_trans _ edge y x -> ~ clos_trans _ edge y y.
Proof.
  intros H Hr Hc. assert (clos_trans _ edge y x \/ y = x) as [Ht| ->].
  { clear -Hr. apply clos_rt_rt1n in Hr. destruct Hr as [|z w H1 H2]; auto.
    left. apply clos_rt1n_rt in H2.
    clear -H1 H2. revert y H1. apply clos_rt_rt1n in H2. induction H2; intros.
    - apply t_step; auto.
    - eapply t_trans; [apply t_step; exact H1|]. apply IHclos_refl_trans_1n; auto. }
  - destruct (lev_anc k x y H Ht) as [j [_ Hy]]. exact (lev_acyclic j y Hy Hc).
  - exact (lev_acyclic k x H Hc).
Qed.
End Levels.
