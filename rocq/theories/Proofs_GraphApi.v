(* Element level theorems about Cycle.setup. *)
From Verif Require Import Lib_Py.
From Verif Require Import Model_Graph Proofs_Graph Proofs_Setup Proofs_SetupData Spec_Flow Proofs_Build.
From Coq Require Import Relations Permutation.

Lemma trans_last {A} (R : A -> A -> Prop) y x : clos_trans _ R y x -> exists z, R z x /\ clos_refl_trans _ R y z.
Proof.
  induction 1 as [x y H|x y z H1 _ _ [w [Hw Hr]]].
  - exists x. split; auto. apply rt_refl.
  - exists w. split; auto. eapply rt_trans; [apply t_rt; exact H1|exact Hr].
Qed.

Section A.
Context {D : Type}.
Variable ops : list build_op.
Variable beh : @behaviour D.
Variables fi0 fo0 : @store D.
Let c := build ops.
Let g := c_graph c.
Let s0 := init c fi0 fo0.

Definition called (s : state D) : list string := rev (map fst (calls s)).

Hypothesis WO : wf_ops ops.

Lemma topo_before v x y : topo c v -> In y v -> edge g x y -> exists v1 v2, v = v1 ++ y :: v2 /\ In x v2.
Proof.
  intros Ht Hy He. apply in_split in Hy as [v1 [v2 ->]]. exists v1, v2. split; auto.
  apply topo_suffix in Ht. simpl in Ht. apply Ht, He.
Qed.
Lemma topo_before_trans v x y : topo c v -> In y v -> clos_trans _ (edge g) x y -> exists v1 v2, v = v1 ++ y :: v2 /\ In x v2.
Proof.
  intros Ht Hy Htr. apply clos_trans_t1n in Htr. revert Hy.
  induction Htr as [x y H|x z y H _ IH]; intros Hy; [apply topo_before; auto|].
  destruct (IH Hy) as [v1 [v2 [E Hz]]]. exists v1, v2. split; auto.
  assert (Ht2 : topo c v2).
  { rewrite E in Ht. apply topo_suffix in Ht. simpl in Ht. tauto. }
  eapply topo_closed; eauto.
Qed.

Lemma filter_app_split {A} (f : A -> bool) l1 y l2 : f y = true ->
  filter f (l1 ++ y :: l2) = filter f l1 ++ y :: filter f l2.
Proof. intros H. rewrite filter_app. cbn [filter]. now rewrite H. Qed.

Lemma connected_nodes a p b q : connected ops a p b q ->
  no_char "." a = true /\ no_char "." p = true /\ no_char "." b = true /\ no_char "." q = true.
Proof.
  intros H. pose proof (flows_nodot ops WO a b (ex_intro _ p (ex_intro _ q H))) as [Ha Hb].
  unfold connected in H. destruct (wf_conn _ WO _ _ H) as [a' [p' [b' [q' [E1 [E2 [H1 [H2 [H3 H4]]]]]]]]].
  assert (Hp : forall a p a' p', no_char "." a = true -> no_char "." a' = true -> path a p = path a' p' -> p = p').
  { clear. induction a as [|x a IH]; intros p a' p' Ha Ha' E; destruct a' as [|y a']; unfold path in E; simpl in E.
    - congruence.
    - injection E as <- E. simpl in Ha'. discriminate.
    - injection E as -> E. simpl in Ha. discriminate.
    - injection E as <- E. simpl in Ha, Ha'. apply andb_true_iff in Ha as [_ Ha]. apply andb_true_iff in Ha' as [_ Ha'].
      eapply IH; eauto. }
  rewrite (Hp a p a' p' Ha H1 E1), (Hp b q b' q' Hb H3 E2). auto.
Qed.

Lemma in_visited_called s n : dinv c beh fi0 fo0 s -> In n (elements_of ops) ->
  (In n (map fst (calls s)) <-> In n (visited s)).
Proof.
  intros HI He. rewrite (I_order _ _ _ _ _ HI). rewrite filter_In.
  assert (a_type (get_attr c n) = Some T_element) as -> by (apply type_elem; auto). tauto.
Qed.
Lemma called_elem s n : dinv c beh fi0 fo0 s -> In n (map fst (calls s)) -> In n (elements_of ops) /\ In n (visited s).
Proof.
  intros HI H. rewrite (I_order _ _ _ _ _ HI) in H. apply filter_In in H as [H1 H2]. split; auto.
  destruct (a_type (get_attr c n)) as [[]|] eqn:E; try discriminate. eapply type_elem; eauto.
Qed.

Lemma called_nodup s : reaches c beh s0 s -> NoDup (called s).
Proof.
  intros H. apply dinv_reach in H; [|apply build_wfg; auto].
  unfold called. apply NoDup_rev. rewrite (I_order _ _ _ _ _ H). apply NoDup_filter.
  apply topo_NoDup with (c := c). apply H.
Qed.

Lemma node_of_conn a p b q : connected ops a p b q ->
  a_type (get_attr c (path a p)) = Some T_out_port /\ a_parent (get_attr c (path a p)) = Some a /\
  a_port (get_attr c (path a p)) = Some p /\
  a_type (get_attr c (path b q)) = Some T_in_port /\ key c (path b q) b q /\
  edge g a (path a p) /\ edge g (path a p) (path b q) /\ edge g (path b q) b.
Proof.
  intros H. destruct (connected_nodes a p b q H) as [Ha [Hp [Hb Hq]]]. unfold connected in H.
  destruct (attr_build ops WO (path a p)) as [A1 _]. destruct (attr_build ops WO (path b q)) as [_ [A2 _]].
  fold c in A1, A2. unfold key. rewrite (A1 _ H), (A2 _ H). cbn [a_type a_parent a_port]. rewrite !port_parent_path, !port_name_path by auto.
  repeat split; auto; apply build_edges; exists (path a p), (path b q); rewrite !port_parent_path by auto; auto.
Qed.

(* an in-port's sources, read back from the graph *)
Lemma src_of_node q' b q : a_type (get_attr c q') = Some T_out_port -> edge g q' (path b q) ->
  no_char "." b = true -> no_char "." q = true ->
  exists a p, q' = path a p /\ connected ops a p b q.
Proof.
  intros Ht He Hb Hq. apply type_out in Ht as [t0 Ht0]; auto.
  apply build_edges in He as [s [t [H1 [[E1 E2]|[[E1 E2]|[E1 E2]]]]]].
  - exfalso. pose proof (src_dot ops WO _ _ Ht0) as X. rewrite E1 in X.
    rewrite (parent_nodot_s ops WO _ _ H1) in X. discriminate.
  - subst s t. destruct (src_path ops WO _ _ H1) as [a [p [-> _]]]. exists a, p. auto.
  - exfalso. subst q'. eapply (wf_dir _ WO t t0 s t); eauto.
Qed.

Lemma upstream_visited s b n : dinv c beh fi0 fo0 s -> In n (visited s) -> clos_trans _ (edge g) b n -> In b (visited s).
Proof.
  intros HI Hn Ht. destruct (topo_before_trans (visited s) b n) as [v1 [v2 [E Hb]]]; auto.
  - apply HI.
  - rewrite E. apply in_or_app; right; right; auto.
Qed.

(* order: a feeder is called before its consumer *)
Lemma called_order s a n : reaches c beh s0 s -> flows ops a n -> In n (called s) ->
  In a (elements_of ops) -> before (called s) a n.
Proof.
  intros Hr Hf Hn Ha. apply dinv_reach in Hr; [|apply build_wfg; auto].
  unfold called in *. apply in_rev in Hn. destruct (called_elem s n Hr Hn) as [Hne Hnv].
  destruct (topo_before_trans (visited s) a n (I_topo _ _ _ _ _ Hr) Hnv (flows_edges ops WO a n Hf)) as [v1 [v2 [E Hav]]].
  rewrite (I_order _ _ _ _ _ Hr), E.
  set (f := fun n0 : string => match a_type (get_attr c n0) with Some T_element => true | _ => false end).
  assert (Hfn : f n = true) by (pose proof (proj2 (type_elem ops WO n) Hne) as Hx; fold c in Hx; unfold f; rewrite Hx; auto).
  assert (Hfa : f a = true) by (pose proof (proj2 (type_elem ops WO a) Ha) as Hx; fold c in Hx; unfold f; rewrite Hx; auto).
  rewrite filter_app_split by exact Hfn.
  assert (In a (filter f v2)) as Hin by (apply filter_In; auto).
  apply in_split in Hin as [w1 [w2 ->]].
  exists (rev w2), (rev w1), (rev (filter f v1)).
  rewrite rev_app_distr. cbn [rev]. rewrite rev_app_distr. cbn [rev].
  rewrite <- !app_assoc. reflexivity.
Qed.

(* the data seen by a call *)
Lemma call_inputs s n d a p q : reaches c beh s0 s -> In (n, d) (calls s) -> connected ops a p n q ->
  exists a' p' x, connected ops a' p' n q /\ dget (fo s a') p' = Some x /\ dget d q = Some x.
Proof.
  intros Hr Hc Hconn. apply dinv_reach in Hr; [|apply build_wfg; auto].
  destruct (I_calls _ _ _ _ _ Hr n d Hc) as [Hv [-> Hb]].
  destruct (node_of_conn a p n q Hconn) as [T1 [P1 [O1 [T2 [K [E1 [E2 E3]]]]]]].
  destruct (connected_nodes a p n q Hconn) as [_ [_ [Hn Hq]]].
  assert (In (path n q) (visited s)) by (eapply topo_closed; eauto; apply Hr).
  assert (In (path a p) (visited s)) by (eapply topo_closed; eauto; apply Hr).
  destruct (I_links _ _ _ _ _ Hr (path a p) (path n q) n q) as [q' [se [op [x [A1 [A2 [A3 [A4 [A5 [A6 A7]]]]]]]]]]; auto.
  destruct (src_of_node q' n q A2 A3 Hn Hq) as [a' [p' [-> Hc']]].
  destruct (node_of_conn a' p' n q Hc') as [_ [P' [O' _]]].
  rewrite P' in A4. rewrite O' in A5. inversion A4; inversion A5; subst.
  exists se, op, x. auto.
Qed.

Lemma call_fixed s n d : reaches c beh s0 s -> In (n, d) (calls s) -> d = fi s n /\ beh n d (fo0 n) = Ok (fo s n).
Proof.
  intros Hr Hc. apply dinv_reach in Hr; [|apply build_wfg; auto].
  destruct (I_calls _ _ _ _ _ Hr n d Hc) as [_ H]. exact H.
Qed.

(* final states *)
Variable fuel : nat.
Variable s : state D.
Hypothesis Hrun : setup c beh fuel fi0 fo0 = Some (Ok s).

Lemma run_reaches : reaches c beh s0 s /\ queue s = [].
Proof. eapply loop_reaches; [apply reach_refl|exact Hrun]. Qed.

Lemma final_called n : In n (called s) <-> In n (elements_of ops) /\ upstream_acyclic ops n.
Proof.
  destruct run_reaches as [Hr Hq]. pose proof (dinv_reach _ _ (build_wfg ops WO) _ _ _ Hr) as HI.
  unfold called. rewrite <- in_rev. split.
  - intros H. destruct (called_elem s n HI H) as [He Hv]. split; auto.
    eapply final_visited in Hv; eauto; [|apply build_wfg; auto].
    apply upstream_iff; [auto| |apply Hv].
    apply (wf_names _ WO) with (b := true). apply in_elements; auto.
  - intros [He Hu]. apply in_visited_called; auto.
    eapply final_visited; eauto; [apply build_wfg; auto|]. split.
    + apply build_nodes; auto.
    + apply upstream_iff; auto. apply (wf_names _ WO) with (b := true). apply in_elements; auto.
Qed.

Lemma final_perm : acyclic ops -> Permutation (called s) (elements_of ops).
Proof.
  intros Ha. apply NoDup_Permutation.
  - apply called_nodup, run_reaches.
  - apply WO.
  - intros n. rewrite final_called. split; [tauto|]. intros H; split; auto. intros a _. apply Ha.
Qed.

Lemma final_out_defined a p b q : connected ops a p b q -> In a (called s) -> dget (fo s a) p <> None.
Proof.
  intros Hc Ha. destruct run_reaches as [Hr Hq]. pose proof (dinv_reach _ _ (build_wfg ops WO) _ _ _ Hr) as HI.
  destruct (node_of_conn a p b q Hc) as [T1 [P1 [O1 [T2 [K [E1 [E2 E3]]]]]]].
  destruct (connected_nodes a p b q Hc) as [Hna [Hnp [Hnb Hnq]]].
  apply final_called in Ha as [He Hu].
  (* the out-port node is visited: its ancestors are a's ancestors, a, and itself *)
  assert (Hv : In (path a p) (visited s)).
  { eapply final_visited; eauto; [apply build_wfg; auto|]. split.
    - apply build_nodes. right. exists (path a p), (path b q). split; auto.
    - intros y Hy Hcy. apply (proj2 (upstream_iff ops WO a Hna) Hu y); auto.
      apply rt_t in Hy as [->|Hy].
      + (* path a p itself on a cycle: its only predecessor is a *)
        exfalso. apply (trans_cases ops WO) in Hcy as [[_ Hcy]|Hcy]; [lia|].
        rewrite (owner_src ops WO _ _ Hc), port_parent_path in Hcy by auto.
        apply (Hu a); [apply rt_refl|exact Hcy].
      + destruct (trans_last _ _ _ Hy) as [z [Hz Hs]].
        apply build_edges in Hz as [s1 [t1 [H1 [[X1 X2]|[[X1 X2]|[X1 X2]]]]]]; subst.
        * rewrite port_parent_path in Hs by auto. exact Hs.
        * exfalso. eapply (wf_dir _ WO (path a p) (path b q) s1 (path a p)); eauto.
        * exfalso. pose proof (parent_nodot_t ops WO _ _ H1) as X. rewrite <- X2, path_dot in X. discriminate. }
  clear Hu.
  (* in the run, when the out-port was visited its data was present and is final *)
  assert (G : forall s1, reaches c beh s0 s1 -> In (path a p) (visited s1) -> dget (fo s1 a) p <> None).
  { clear -WO Hc T1 P1 O1 E1 E2. intros s1 H1.
    assert (dinv c beh fi0 fo0 s1 /\ (In (path a p) (visited s1) -> dget (fo s1 a) p <> None)) as [_ G]; [|exact G].
    revert s1 H1. apply reaches_ind'.
    - split; [apply dinv_init|]. cbn. tauto.
    - intros s2 n q0 s' [HI IH] _ Ho. split; [eapply dinv_step; eauto; apply build_wfg; auto|].
      destruct Ho as [Hr E|Hr Hv E|d Hr Hnv Hty He Hb E|se op fi' Hr Hnv Hty Hp Ho Hd E|Hr Hnv Hty E]; subst s'; cbn [visited fo]; auto.
      + intros [Hx|Hx]; [rewrite Hx, T1 in Hty; discriminate|].
        unfold supd. destruct (String.eqb n a) eqn:En; auto. seqb. subst n.
        exfalso. apply Hnv. eapply topo_closed; [apply HI|exact Hx|exact E1].
      + intros [Hx|Hx]; auto. subst n. rewrite P1 in Hp. rewrite O1 in Ho. inversion Hp; inversion Ho; subst.
        destruct (do_links_get _ _ _ _ _ _ _ Hd) as [D1 _].
        destruct (D1 b q) as [_ G]; auto. exists (path b q). split; [apply in_succs; exact E2|].
        destruct (node_of_conn se op b q Hc) as [_ [_ [_ [_ [K _]]]]]. exact K.
      + intros [Hx|Hx]; auto. rewrite Hx, T1 in Hty. discriminate. }
  apply (G s Hr Hv).
Qed.

Lemma final_data a p b q : connected ops a p b q -> In b (called s) ->
  (forall a' p', connected ops a' p' b q -> a' = a /\ p' = p) ->
  exists x, dget (fo s a) p = Some x /\ dget (fi s b) q = Some x.
Proof.
  intros Hc Hb Hs. destruct run_reaches as [Hr Hq]. unfold called in Hb. apply in_rev in Hb.
  apply in_map_iff in Hb as [[b' d] [E Hin]]. cbn in E. subst b'.
  destruct (call_fixed s b d Hr Hin) as [-> _].
  destruct (call_inputs s b (fi s b) a p q Hr Hin Hc) as [a' [p' [x [H1 [H2 H3]]]]].
  destruct (Hs a' p' H1) as [-> ->]. eauto.
Qed.

Lemma final_keep b q : (forall a p, ~ connected ops a p b q) -> dget (fi s b) q = dget (fi0 b) q.
Proof.
  intros H. destruct run_reaches as [Hr _]. apply dinv_reach in Hr; [|apply build_wfg; auto].
  apply (I_keep _ _ _ _ _ Hr). intros q' l Hv Ht He [K1 K2].
  apply type_out in Ht as [t0 Ht0]; auto.
  assert (a_type (get_attr c l) = Some T_in_port) as Hl.
  { eapply (W_links _ (build_wfg ops WO)); eauto. apply type_out; eauto. }
  apply type_in in Hl as [s1 Hs1]; auto.
  destruct (attr_build ops WO l) as [_ [A2 _]]. fold c in A2. rewrite (A2 _ Hs1) in K1, K2. cbn in K1, K2.
  inversion K1; inversion K2; subst.
  destruct (tgt_path ops WO _ _ Hs1) as [b' [q'' [-> [Hb Hq]]]]. rewrite port_parent_path, port_name_path in * by auto.
  destruct (src_of_node q' b' q'') as [a [p [-> Hc]]]; auto.
  - apply type_out; eauto.
  - eapply H; eauto.
Qed.
End A.

(* ---- errors ---- *)
Section E.
Context {D : Type}.
Variable ops : list build_op.
Variable beh : @behaviour D.
Variables fi0 fo0 : @store D.
Let c := build ops.
Let s0 := init c fi0 fo0.
Hypothesis WO : wf_ops ops.
Hypothesis all_added : forall a b, flows ops a b -> In a (elements_of ops) /\ In b (elements_of ops).
Hypothesis beh_ok : forall n di do_, In n (elements_of ops) -> exists d, beh n di do_ = Ok d.

Lemma node_typed n : In n (nodes (c_graph c)) -> exists ty, a_type (get_attr c n) = Some ty.
Proof.
  intros Hn. apply build_nodes in Hn as [Hn|[s [t [H [->|[->|[->| ->]]]]]]].
  - exists T_element. apply type_elem; auto.
  - exists T_out_port. apply type_out; eauto.
  - exists T_in_port. apply type_in; eauto.
  - exists T_element. apply type_elem; auto. exact (proj1 (all_added _ _ (flows_of ops WO _ _ H))).
  - exists T_element. apply type_elem; auto. exact (proj2 (all_added _ _ (flows_of ops WO _ _ H))).
Qed.

Lemma do_links_err a p links (fi1 fo1 : @store D) e : In a (elements_of ops) ->
  (forall l, In l links -> exists s, In (ConnectFlow s l) ops) ->
  do_links c a p links fi1 fo1 = Err e -> e = RuntimeError /\ dget (fo1 a) p = None.
Proof.
  intros Ha. revert fi1. induction links as [|l ls IH]; intros fi1 Hl H; [discriminate|].
  cbn [do_links] in H. destruct (Hl l (or_introl eq_refl)) as [s Hs].
  destruct (attr_build ops WO l) as [_ [A2 _]]. fold c in A2. rewrite (A2 _ Hs) in H. cbn in H.
  assert (Hel : forall n, In n (elements_of ops) -> is_elem c n = true).
  { intros n Hn. unfold is_elem. apply str_in_iff. unfold c. rewrite build_elems. auto. }
  rewrite (Hel a Ha) in H. cbn in H. destruct (dget (fo1 a) p); [|inversion H; auto].
  rewrite Hel in H by (exact (proj2 (all_added _ _ (flows_of ops WO _ _ Hs)))). cbn in H.
  eapply IH; eauto. intros; apply Hl; right; auto.
Qed.

Lemma process_err s n q e : reaches c beh s0 s -> queue s = n :: q -> process c beh s n q = Err e ->
  e = RuntimeError /\ exists a p b q, connected ops a p b q /\ In a (called s) /\ dget (fo s a) p = None.
Proof.
  intros Hr Hq H. pose proof (dinv_reach _ _ (build_wfg ops WO) _ _ _ Hr) as HI.
  pose proof (reach_frontier c beh fi0 fo0 (W_edge_nodes _ (build_wfg ops WO)) s Hr) as [_ [_ Fq]].
  assert (Hn : In n (nodes (c_graph c))) by (apply Fq; rewrite Hq; left; auto).
  destruct (node_typed n Hn) as [ty Hty]. unfold process in H. rewrite Hty in H.
  destruct (ready c (visited s) n) eqn:Hrd; cbn [negb] in H; [|discriminate].
  destruct (str_in n (visited s)); [discriminate|].
  destruct ty; [| |discriminate].
  - apply type_elem in Hty; auto.
    assert (is_elem c n = true) as Hie. { unfold is_elem. apply str_in_iff. unfold c. rewrite build_elems. auto. }
    rewrite Hie in H. cbn in H. destruct (beh_ok n (fi s n) (fo s n) Hty) as [d Hd]. rewrite Hd in H. discriminate.
  - pose proof (proj1 (type_out ops WO n) Hty) as [t Ht].
    destruct (attr_build ops WO n) as [A1 _]. fold c in A1. rewrite (A1 _ Ht) in H. cbn in H.
    destruct (do_links c (port_parent n) (port_name n) (succs (c_graph c) n) (fi s) (fo s)) as [f|e'] eqn:Ed; [discriminate|].
    inversion H; subst e'.
    assert (Hpe : In (port_parent n) (elements_of ops)) by (exact (proj1 (all_added _ _ (flows_of ops WO _ _ Ht)))).
    apply do_links_err in Ed as [-> Hd]; auto.
    + split; auto. destruct (wf_conn _ WO _ _ Ht) as [a [p [b [q' [-> [-> [H1 [H2 [H3 H4]]]]]]]]].
      rewrite port_parent_path, port_name_path in * by auto.
      exists a, p, b, q'. split; auto. split; auto. unfold called. rewrite <- in_rev.
      apply in_visited_called with (ops := ops) (beh := beh) (fi0 := fi0) (fo0 := fo0); auto.
      apply (proj1 (ready_iff c (visited s) (path a p)) Hrd).
      apply build_edges. exists (path a p), (path b q'). rewrite port_parent_path by auto. auto.
    + intros l Hl. apply in_succs in Hl. pose proof (W_links _ (build_wfg ops WO) n l Hty Hl) as Hlt.
      apply type_in in Hlt; auto.
Qed.

Lemma loop_err fuel s e : reaches c beh s0 s -> loop c beh fuel s = Some (Err e) ->
  e = RuntimeError /\ exists s' a p b q, reaches c beh s0 s' /\ connected ops a p b q /\ In a (called s') /\ dget (fo s' a) p = None.
Proof.
  revert s. induction fuel as [|fuel IH]; intros s Hr H; cbn [loop] in H.
  - destruct (queue s); discriminate.
  - destruct (queue s) as [|n q] eqn:Eq; [discriminate|].
    destruct (process c beh s n q) as [s'|e'] eqn:Ep.
    + apply (IH s'); auto. econstructor; eauto.
    + inversion H; subst e'. destruct (process_err s n q e Hr Eq Ep) as [-> [a [p [b [q' [H1 [H2 H3]]]]]]].
      split; auto. exists s, a, p, b, q'. auto.
Qed.

Lemma setup_err fuel e : setup c beh fuel fi0 fo0 = Some (Err e) ->
  e = RuntimeError /\ exists a p b q di d, connected ops a p b q /\ beh a di (fo0 a) = Ok d /\ dget d p = None.
Proof.
  intros H. apply loop_err in H as [-> [s' [a [p [b [q [Hr [H1 [H2 H3]]]]]]]]]; [|apply reach_refl].
  split; auto. unfold called in H2. apply in_rev in H2. apply in_map_iff in H2 as [[a' di] [E Hin]]. cbn in E; subst a'.
  destruct (call_fixed ops beh fi0 fo0 WO s' a di Hr Hin) as [_ Hb].
  exists a, p, b, q, di, (fo s' a). auto.
Qed.

Lemma setup_ok_when_ports_defined :
  (forall a p b q di d, connected ops a p b q -> beh a di (fo0 a) = Ok d -> dget d p <> None) ->
  exists n s, forall m, n <= m -> setup c beh m fi0 fo0 = Some (Ok s).
Proof.
  intros Hp. destruct (setup_terminates c beh fi0 fo0) as [r [n Hn]]. destruct r as [s|e].
  - exists n, s. auto.
  - exfalso. specialize (Hn n (Nat.le_refl _)). apply setup_err in Hn as [_ [a [p [b [q [di [d [H1 [H2 H3]]]]]]]]].
    eapply Hp; eauto.
Qed.
End E.

Lemma setup_missing_port {D} ops (beh : @behaviour D) fi0 fo0 : wf_ops ops ->
  forall a p b q, connected ops a p b q -> In a (elements_of ops) -> upstream_acyclic ops a ->
  (forall di d, beh a di (fo0 a) = Ok d -> dget d p = None) ->
  exists e n, forall m, n <= m -> setup (build ops) beh m fi0 fo0 = Some (Err e).
Proof.
  intros WO a p b q Hc Ha Hu Hb. destruct (setup_terminates (build ops) beh fi0 fo0) as [r [n Hn]].
  destruct r as [s|e]; [|eauto].
  exfalso. specialize (Hn n (Nat.le_refl _)).
  assert (Hcall : In a (called s)) by (eapply final_called; eauto).
  apply (final_out_defined ops beh fi0 fo0 WO n s Hn a p b q Hc Hcall).
  destruct (run_reaches ops beh fi0 fo0 n s Hn) as [Hr _].
  unfold called in Hcall. apply in_rev in Hcall. apply in_map_iff in Hcall as [[a' di] [E Hin]]. cbn in E; subst a'.
  destruct (call_fixed ops beh fi0 fo0 WO s a di Hr Hin) as [_ Hf]. eapply Hb; eauto.
Qed.
