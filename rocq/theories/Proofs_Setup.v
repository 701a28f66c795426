(* Termination and invariants of Cycle.setup's traversal. *)
From Verif Require Import Lib_Py.
From Verif Require Import Model_Graph Proofs_Graph.
From Coq Require Import Relations.

Section S.
Context {D : Type}.
Variable c : cycle.
Variable beh : @behaviour D.
Let g := c_graph c.
Notation edge := (edge g).
Notation type n := (a_type (get_attr c n)).
Notation parent n := (a_parent (get_attr c n)).
Notation port n := (a_port (get_attr c n)).

Lemma ready_iff v n : ready c v n = true <-> forall p, edge p n -> In p v.
Proof.
  unfold ready. rewrite forallb_forall. fold g. split; intros H p Hp.
  - apply str_in_iff, H, in_preds, Hp.
  - apply str_in_iff, H, in_preds, Hp.
Qed.

(* one iteration of the loop, by cases *)
Inductive outcome (s : state D) (n : string) (q : list string) (s' : state D) : Prop :=
| out_wait :
    ready c (visited s) n = false ->
    s' = mkState q (visited s) (fi s) (fo s) (calls s) -> outcome s n q s'
| out_again :
    ready c (visited s) n = true -> In n (visited s) ->
    s' = mkState (q ++ succs g n) (visited s) (fi s) (fo s) (calls s) -> outcome s n q s'
| out_elem d :
    ready c (visited s) n = true -> ~ In n (visited s) -> type n = Some T_element ->
    In n (c_elems c) -> beh n (fi s n) (fo s n) = Ok d ->
    s' = mkState (q ++ succs g n) (n :: visited s) (fi s) (supd (fo s) n d) ((n, fi s n) :: calls s) ->
    outcome s n q s'
| out_oport se op fi' :
    ready c (visited s) n = true -> ~ In n (visited s) -> type n = Some T_out_port ->
    parent n = Some se -> port n = Some op ->
    do_links c se op (succs g n) (fi s) (fo s) = Ok fi' ->
    s' = mkState (q ++ succs g n) (n :: visited s) fi' (fo s) (calls s) -> outcome s n q s'
| out_iport :
    ready c (visited s) n = true -> ~ In n (visited s) -> type n = Some T_in_port ->
    s' = mkState (q ++ succs g n) (n :: visited s) (fi s) (fo s) (calls s) -> outcome s n q s'.

Lemma process_outcome s n q s' : process c beh s n q = Ok s' -> outcome s n q s'.
Proof.
  unfold process. fold g. destruct (type n) as [ty|] eqn:Et; [|discriminate].
  destruct (ready c (visited s) n) eqn:Er; simpl.
  - destruct (str_in n (visited s)) eqn:Ev.
    + intros H; inversion H; subst. apply out_again; auto. now apply str_in_iff.
    + apply str_in_false in Ev. destruct ty.
      * destruct (is_elem c n) eqn:Ei; simpl; [|discriminate].
        destruct (beh n (fi s n) (fo s n)) as [d|e] eqn:Eb; [|discriminate].
        intros H; inversion H; subst. eapply out_elem; eauto. now apply str_in_iff.
      * destruct (parent n) as [se|] eqn:Ep; [|discriminate].
        destruct (port n) as [op|] eqn:Eo; [|discriminate].
        destruct (do_links c se op (succs g n) (fi s) (fo s)) as [fi'|e] eqn:Ed; [|discriminate].
        intros H; inversion H; subst. eapply out_oport; eauto.
      * intros H; inversion H; subst. apply out_iport; auto.
  - intros H; inversion H; subst. apply out_wait; auto.
Qed.

Lemma outcome_queue s n q s' : outcome s n q s' ->
  (ready c (visited s) n = false /\ queue s' = q) \/ (ready c (visited s) n = true /\ queue s' = q ++ succs g n).
Proof. destruct 1; subst; simpl; auto. Qed.

Lemma outcome_visited s n q s' : outcome s n q s' ->
  visited s' = visited s \/ (ready c (visited s) n = true /\ ~ In n (visited s) /\ visited s' = n :: visited s).
Proof. destruct 1; subst; simpl; auto. Qed.

(* ---------- topological order of the visited list ---------- *)
Fixpoint topo (v : list string) : Prop :=
  match v with
  | [] => True
  | x :: r => topo r /\ ~ In x r /\ (forall p, edge p x -> In p r)
  end.

Lemma topo_NoDup v : topo v -> NoDup v.
Proof. induction v; simpl; intros H; constructor; intuition. Qed.
Lemma topo_closed v x p : topo v -> In x v -> edge p x -> In p v.
Proof.
  induction v as [|y r IH]; simpl; [tauto|]. intros [H1 [H2 H3]] [->|Hx] He; auto.
Qed.
Lemma topo_lev N v : stable g N -> topo v -> forall x, In x v -> lev g N x = true.
Proof.
  intros HS. induction v as [|y r IH]; simpl; [tauto|].
  intros [H1 [H2 H3]] x [->|Hx]; auto.
  apply HS. cbn [lev]. apply forallb_forall. intros p Hp. apply IH; auto. apply H3, in_preds, Hp.
Qed.
Lemma process_topo s n q s' : outcome s n q s' -> topo (visited s) -> topo (visited s').
Proof.
  intros H Ht. destruct (outcome_visited _ _ _ _ H) as [->|[Hr [Hn ->]]]; auto.
  simpl. rewrite ready_iff in Hr. auto.
Qed.

(* ---------- termination ---------- *)
Lemma process_weight N s n q s' : stable g N -> topo (visited s) -> outcome s n q s' ->
  wgts g N (queue s') < wgts g N (n :: q).
Proof.
  intros HS Ht H. pose proof (wgt_pos g N n) as Hpos. cbn [wgts fold_right]. fold (wgts g N q).
  destruct (outcome_queue _ _ _ _ H) as [[_ ->]|[Hr ->]].
  - lia.
  - rewrite wgts_app.
    assert (lev g N n = true) as HL.
    { apply HS. cbn [lev]. apply forallb_forall. intros p Hp.
      eapply topo_lev; eauto. rewrite ready_iff in Hr. apply Hr. apply in_preds, Hp. }
    pose proof (wgts_succs g N n HL). lia.
Qed.

Lemma loop_fuel N fuel s : stable g N -> topo (visited s) -> wgts g N (queue s) <= fuel ->
  exists r, loop c beh fuel s = Some r.
Proof.
  intros HS. revert s. induction fuel as [|fuel IH]; intros s Ht Hw; cbn [loop].
  - destruct (queue s) as [|n q]; eauto. pose proof (wgt_pos g N n).
    cbn [wgts fold_right] in Hw. lia.
  - destruct (queue s) as [|n q] eqn:Eq; eauto.
    destruct (process c beh s n q) as [s'|e] eqn:Ep; eauto.
    apply process_outcome in Ep. apply IH.
    + eapply process_topo; eauto.
    + pose proof (process_weight N s n q s' HS Ht Ep). lia.
Qed.

Lemma loop_more fuel s r : loop c beh fuel s = Some r -> forall m, fuel <= m -> loop c beh m s = Some r.
Proof.
  revert s. induction fuel as [|fuel IH]; intros s H m Hm.
  - destruct m; cbn [loop] in *; destruct (queue s); auto; discriminate.
  - destruct m as [|m]; [lia|]. cbn [loop] in *. destruct (queue s) as [|n q]; auto.
    destruct (process c beh s n q); auto. apply IH; auto. lia.
Qed.

Lemma setup_terminates fi0 fo0 : exists r n, forall m, n <= m -> setup c beh m fi0 fo0 = Some r.
Proof.
  destruct (stable_exists g) as [N HS].
  destruct (loop_fuel N (wgts g N (queue (init c fi0 fo0))) (init c fi0 fo0) HS I (Nat.le_refl _)) as [r Hr].
  exists r, (wgts g N (queue (init c fi0 fo0))). intros m Hm. unfold setup. eapply loop_more; eauto.
Qed.

(* ---------- reachable states ---------- *)
Notation reaches := (reaches c beh).

Lemma loop_reaches s0 fuel s r : reaches s0 s -> loop c beh fuel s = Some (Ok r) -> reaches s0 r /\ queue r = [].
Proof.
  revert s. induction fuel as [|fuel IH]; intros s Hr H; cbn [loop] in H.
  - destruct (queue s) eqn:E; inversion H; subst; auto.
  - destruct (queue s) as [|n q] eqn:E; [inversion H; subst; auto|].
    destruct (process c beh s n q) as [s'|e] eqn:Ep; [|discriminate].
    apply (IH s'); auto. econstructor; eauto.
Qed.

Lemma reaches_ind' s0 (P : state D -> Prop) :
  P s0 -> (forall s n q s', P s -> queue s = n :: q -> outcome s n q s' -> P s') ->
  forall s, reaches s0 s -> P s.
Proof.
  intros H0 Hs s Hr. induction Hr; auto. eapply Hs; eauto. apply process_outcome; auto.
Qed.

Section Runs.
Variables fi0 fo0 : @store D.
Let s0 := init c fi0 fo0.

Lemma reach_topo s : reaches s0 s -> topo (visited s).
Proof.
  apply (reaches_ind' s0 (fun s => topo (visited s))).
  - exact I.
  - intros s1 n q s' Ht _ Ho. eapply process_topo; eauto.
Qed.

Hypothesis W_edge_nodes : forall u v, edge u v -> In u (nodes g) /\ In v (nodes g).

Definition frontier (s : state D) : Prop :=
  (forall x, In x (nodes g) -> ready c (visited s) x = true -> In x (visited s) \/ In x (queue s)) /\
  incl (visited s) (nodes g) /\ incl (queue s) (nodes g).

Lemma reach_frontier s : reaches s0 s -> frontier s.
Proof.
  apply reaches_ind'.
  - unfold frontier, s0, init; cbn [visited queue]. split; [|split].
    + intros x Hx Hr. right. apply filter_In. split; auto. fold g in Hx |- *.
      unfold in_degree. destruct (preds g x) as [|p l] eqn:E; auto.
      rewrite ready_iff in Hr. exfalso. apply (Hr p). apply in_preds. rewrite E; left; auto.
    + intros x [].
    + intros x Hx. apply filter_In in Hx. tauto.
  - intros s1 n q s' [F1 [F2 F3]] Eq Ho.
    assert (Hn : In n (nodes g)) by (apply F3; rewrite Eq; left; auto).
    assert (Hq : incl q (nodes g)) by (intros x Hx; apply F3; rewrite Eq; right; auto).
    assert (Hs : incl (succs g n) (nodes g)).
    { intros x Hx. apply in_succs in Hx. apply (W_edge_nodes n x Hx). }
    destruct (outcome_queue _ _ _ _ Ho) as [[Hr Hqq]|[Hr Hqq]];
    destruct (outcome_visited _ _ _ _ Ho) as [Hv|[Hr' [Hnv Hv]]]; try congruence;
    unfold frontier; rewrite Hqq, Hv; (split; [|split]); auto.
    + intros x Hx Hrx. destruct (F1 x Hx Hrx) as [?|Hi]; auto.
      rewrite Eq in Hi. destruct Hi as [->|Hi]; auto. congruence.
    + intros x Hx Hrx. destruct (F1 x Hx Hrx) as [?|Hi]; auto. rewrite Eq in Hi.
      destruct Hi as [<-|Hi]; [|right; apply in_or_app; auto].
      left. clear -Ho Hv Hr. destruct Ho; subst; simpl in *; auto; try congruence;
        exfalso; match goal with H : ?a :: ?l = ?l |- _ => revert H; clear end;
        intros H; apply (f_equal (@List.length string)) in H; simpl in H; lia.
    + intros x Hx. apply in_app_or in Hx as [Hx|Hx]; auto.
    + intros x Hx Hrx. destruct (string_dec x n) as [->|Hne]; [left; left; auto|].
      destruct (ready c (visited s1) x) eqn:E.
      * destruct (F1 x Hx E) as [?|Hi]; [left; right; auto|]. rewrite Eq in Hi.
        destruct Hi as [Hi|Hi]; [congruence|right; apply in_or_app; auto].
      * right. apply in_or_app; right. apply in_succs.
        assert (~ forall p, edge p x -> In p (visited s1)) as HN.
        { rewrite <- ready_iff. congruence. }
        rewrite ready_iff in Hrx.
        destruct (in_dec string_dec n (preds g x)) as [Hp|Hp]; [apply in_preds; auto|].
        exfalso. apply HN. intros p Hpe. destruct (Hrx p Hpe) as [->|?]; auto.
        exfalso. apply Hp, in_preds, Hpe.
    + intros x [<-|Hx]; auto.
    + intros x Hx. apply in_app_or in Hx as [Hx|Hx]; auto.
Qed.

(* at the end exactly the nodes with acyclic ancestry were visited *)
Lemma final_visited s : reaches s0 s -> queue s = [] ->
  forall x, In x (visited s) <-> In x (nodes g) /\ forall y, clos_refl_trans _ edge y x -> ~ clos_trans _ edge y y.
Proof.
  intros Hr Hq x. destruct (reach_frontier s Hr) as [F1 [F2 F3]].
  destruct (stable_exists g) as [N HS]. split.
  - intros Hx. split; auto. intros y Hy. eapply lev_no_cyclic_ancestor; eauto.
    eapply topo_lev; eauto. eapply reach_topo; eauto.
  - intros [Hx Hc].
    assert (HL : lev g N x = true).
    { destruct (lev g N x) eqn:E; auto. destruct (unlev_cycle g N x HS E) as [y [H1 H2]].
      exfalso. exact (Hc y H2 H1). }
    clear Hc. revert x Hx HL.
    assert (forall k x, In x (nodes g) -> lev g k x = true -> In x (visited s)) as H.
    { induction k as [|k IH]; intros x Hx HL; [discriminate|].
      destruct (F1 x Hx) as [?|Hi]; auto.
      - apply ready_iff. intros p Hp. cbn [lev] in HL. rewrite forallb_forall in HL.
        apply IH. apply (W_edge_nodes p x Hp). apply HL, in_preds, Hp.
      - rewrite Hq in Hi. destruct Hi. }
    intros; eapply H; eauto.
Qed.
End Runs.
End S.
