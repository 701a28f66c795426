(* The graph produced by the building API. *)
From Verif Require Import Lib_Py.
From Verif Require Import Model_Graph Proofs_Graph Proofs_Setup Proofs_SetupData Spec_Flow.
From Coq Require Import Relations.

Definition att (g : graph) (n : string) : attrs :=
  match dget (g_nodes g) n with Some a => a | None => no_attrs end.

Lemma att_add_node g n a m :
  att (add_node g n a) m =
  if String.eqb m n then mkAttrs (or_else (a_type a) (a_type (att g n)))
                                 (or_else (a_parent a) (a_parent (att g n)))
                                 (or_else (a_port a) (a_port (att g n)))
  else att g m.
Proof.
  unfold att, add_node. cbn [g_nodes]. rewrite dget_dset.
  destruct (String.eqb m n); auto.
Qed.
Lemma att_add_node_no g n m : att (add_node g n no_attrs) m = att g m.
Proof.
  rewrite att_add_node. destruct (String.eqb m n) eqn:E; auto. seqb. subst.
  cbn. destruct (att g n); reflexivity.
Qed.
Lemma att_edges ns es es' m : att (mkGraph ns es) m = att (mkGraph ns es') m.
Proof. reflexivity. Qed.
Lemma att_add_edge g u v m : att (add_edge g u v) m = att g m.
Proof.
  unfold add_edge. set (g2 := add_node (add_node g u no_attrs) v no_attrs).
  assert (att g2 m = att g m) as H by (unfold g2; now rewrite !att_add_node_no).
  destruct (existsb (edge_eqb (u, v)) (g_edges g2)); auto.
Qed.

Lemma edges_add_node g n a : g_edges (add_node g n a) = g_edges g.
Proof. reflexivity. Qed.
Lemma edges_add_edge g u v x : In x (g_edges (add_edge g u v)) <-> In x (g_edges g) \/ x = (u, v).
Proof.
  unfold add_edge. set (g2 := add_node (add_node g u no_attrs) v no_attrs).
  change (g_edges g) with (g_edges g2).
  destruct (existsb (edge_eqb (u, v)) (g_edges g2)) eqn:E.
  - split; auto. intros [H| ->]; auto.
    apply existsb_exists in E as [[a b] [H1 H2]]. unfold edge_eqb in H2. cbn in H2.
    apply andb_true_iff in H2 as [H2 H3]. seqb. subst. auto.
  - cbn [g_edges]. rewrite in_app_iff. simpl. intuition.
Qed.

Lemma nodes_add_node g n a m : In m (nodes (add_node g n a)) <-> In m (nodes g) \/ m = n.
Proof. unfold nodes, add_node. cbn [g_nodes]. apply in_dkeys_dset. Qed.
Lemma nodes_add_edge g u v m : In m (nodes (add_edge g u v)) <-> In m (nodes g) \/ m = u \/ m = v.
Proof.
  unfold add_edge. set (g2 := add_node (add_node g u no_attrs) v no_attrs).
  assert (In m (nodes g2) <-> In m (nodes g) \/ m = u \/ m = v) as H.
  { unfold g2. rewrite !nodes_add_node. tauto. }
  destruct (existsb (edge_eqb (u, v)) (g_edges g2)); auto.
Qed.

Lemma build_snoc ops o : build (ops ++ [o]) = apply_op (build ops) o.
Proof. unfold build. now rewrite fold_left_app. Qed.

Lemma build_edges ops u v :
  In (u, v) (g_edges (c_graph (build ops))) <->
  exists s t, In (ConnectFlow s t) ops /\
    ((u = port_parent s /\ v = s) \/ (u = s /\ v = t) \/ (u = t /\ v = port_parent t)).
Proof.
  induction ops as [|o ops IH] using rev_ind.
  - cbn. split; [tauto|]. intros [s [t [[] _]]].
  - rewrite build_snoc. destruct o as [n b|s t].
    + assert (g_edges (c_graph (apply_op (build ops) (AddSubsystem n b))) = g_edges (c_graph (build ops))) as ->.
      { destruct b; reflexivity. }
      rewrite IH. split; intros [s [t [H1 H2]]]; exists s, t; split; auto.
      * apply in_or_app; auto.
      * apply in_app_or in H1 as [H1|[H1|[]]]; auto. discriminate.
    + cbn [apply_op connect_flow c_graph]. unfold connect_flow. cbn [c_graph].
      rewrite !edges_add_edge, !edges_add_node, IH. split.
      * intros [[[[s' [t' [H1 H2]]]|H]|H]|H].
        -- exists s', t'. split; auto. apply in_or_app; auto.
        -- inversion H; subst. exists s, t. split; [apply in_or_app; right; left; auto|auto].
        -- inversion H; subst. exists s, t. split; [apply in_or_app; right; left; auto|auto].
        -- inversion H; subst. exists s, t. split; [apply in_or_app; right; left; auto|auto].
      * intros [s' [t' [H1 H2]]]. apply in_app_or in H1 as [H1|[H1|[]]].
        -- left; left; left. eauto.
        -- inversion H1; subst s' t'. destruct H2 as [[-> ->]|[[-> ->]|[-> ->]]]; auto.
Qed.

Lemma build_nodes ops n :
  In n (nodes (c_graph (build ops))) <->
  In n (elements_of ops) \/
  exists s t, In (ConnectFlow s t) ops /\ (n = s \/ n = t \/ n = port_parent s \/ n = port_parent t).
Proof.
  induction ops as [|o ops IH] using rev_ind.
  - cbn. split; [tauto|]. intros [[]|[s [t [[] _]]]].
  - rewrite build_snoc. unfold elements_of. rewrite flat_map_app. fold (elements_of ops).
    rewrite in_app_iff. destruct o as [m b|s t].
    + assert (Hc : (exists s t, In (ConnectFlow s t) (ops ++ [AddSubsystem m b]) /\
                  (n = s \/ n = t \/ n = port_parent s \/ n = port_parent t)) <->
              exists s t, In (ConnectFlow s t) ops /\ (n = s \/ n = t \/ n = port_parent s \/ n = port_parent t)).
      { split; intros [s [t [H1 H2]]]; exists s, t; split; auto.
        - apply in_app_or in H1 as [H1|[H1|[]]]; auto. discriminate.
        - apply in_or_app; auto. }
      rewrite Hc. destruct b; cbn [apply_op add_subsystem c_graph flat_map app].
      * rewrite nodes_add_node, IH. simpl. intuition.
      * rewrite IH. simpl. tauto.
    + cbn [apply_op]. unfold connect_flow. cbn [c_graph].
      rewrite !nodes_add_edge, !nodes_add_node, IH. cbn [flat_map app]. split.
      * intros H.
        assert ((In n (elements_of ops) \/ (exists s t, In (ConnectFlow s t) ops /\ (n = s \/ n = t \/ n = port_parent s \/ n = port_parent t)))
            \/ (n = s \/ n = t \/ n = port_parent s \/ n = port_parent t)) as [[H'|[s' [t' [H1 H2]]]]|H'] by tauto.
        -- auto.
        -- right. exists s', t'. split; auto. apply in_or_app; auto.
        -- right. exists s, t. split; auto. apply in_or_app; right; left; auto.
      * intros [[H|[]]|[s' [t' [H1 H2]]]]; [tauto|].
        apply in_app_or in H1 as [H1|[H1|[]]].
        -- do 4 left. left. right. eauto.
        -- inversion H1; subst s' t'. tauto.
Qed.

Lemma build_elems ops : c_elems (build ops) = elements_of ops.
Proof.
  induction ops as [|o ops IH] using rev_ind; auto.
  rewrite build_snoc. unfold elements_of. rewrite flat_map_app. fold (elements_of ops).
  destruct o as [n []|s t]; cbn; rewrite IH; auto; now rewrite app_nil_r.
Qed.

Lemma in_elements ops n : In n (elements_of ops) <-> In (AddSubsystem n true) ops.
Proof.
  unfold elements_of. rewrite in_flat_map. split.
  - intros [o [H1 H2]]. destruct o as [m []|]; simpl in H2; try tauto.
    destruct H2 as [->|[]]; auto.
  - intros H. exists (AddSubsystem n true). simpl; auto.
Qed.

(* ---- names ---- *)
Lemma path_split a p : no_char "." a = true -> no_char "." p = true -> split_on "." (path a p) = [a; p].
Proof.
  intros Ha Hp. unfold path. rewrite append_assoc || idtac.
  change ("." ++ p)%string with (String "." p). rewrite split_on_app; auto. now rewrite split_no_char.
Qed.
Lemma port_parent_path a p : no_char "." a = true -> no_char "." p = true -> port_parent (path a p) = a.
Proof. intros. unfold port_parent. rewrite path_split; auto. Qed.
Lemma port_name_path a p : no_char "." a = true -> no_char "." p = true -> port_name (path a p) = p.
Proof. intros. unfold port_name. rewrite path_split; auto. Qed.
Lemma path_dot a p : no_char "." (path a p) = false.
Proof. unfold path. rewrite !no_char_app. simpl. apply andb_false_r. Qed.
Lemma path_inj a p b q : no_char "." a = true -> no_char "." p = true ->
  no_char "." b = true -> no_char "." q = true -> path a p = path b q -> a = b /\ p = q.
Proof.
  intros Ha Hp Hb Hq E. split.
  - rewrite <- (port_parent_path a p), <- (port_parent_path b q); auto. now rewrite E.
  - rewrite <- (port_name_path a p), <- (port_name_path b q); auto. now rewrite E.
Qed.

Section Wf.
Variable ops : list build_op.
Hypothesis WO : wf_ops ops.
Let c := build ops.
Let g := c_graph c.

Definition attr_spec (l : list build_op) (n : string) (a : attrs) : Prop :=
  (forall t, In (ConnectFlow n t) l -> a = mkAttrs (Some T_out_port) (Some (port_parent n)) (Some (port_name n))) /\
  (forall s, In (ConnectFlow s n) l -> a = mkAttrs (Some T_in_port) (Some (port_parent n)) (Some (port_name n))) /\
  (In n (elements_of l) -> a = mkAttrs (Some T_element) None None) /\
  ((forall t, ~ In (ConnectFlow n t) l) -> (forall s, ~ In (ConnectFlow s n) l) -> ~ In n (elements_of l) ->
     a = no_attrs).

Lemma elem_not_src n t l : incl l ops -> In n (elements_of l) -> In (ConnectFlow n t) l -> False.
Proof.
  intros Hi He Hc. apply in_elements in He. apply Hi in He, Hc.
  apply (wf_names _ WO) in He. destruct (wf_conn _ WO _ _ Hc) as [a [p [b [q [-> _]]]]].
  rewrite path_dot in He. discriminate.
Qed.
Lemma elem_not_tgt n s l : incl l ops -> In n (elements_of l) -> In (ConnectFlow s n) l -> False.
Proof.
  intros Hi He Hc. apply in_elements in He. apply Hi in He, Hc.
  apply (wf_names _ WO) in He. destruct (wf_conn _ WO _ _ Hc) as [a [p [b [q [_ [-> _]]]]]].
  rewrite path_dot in He. discriminate.
Qed.

Lemma in_conn_snoc l s t o : In (ConnectFlow s t) (l ++ [o]) <-> In (ConnectFlow s t) l \/ o = ConnectFlow s t.
Proof. rewrite in_app_iff. simpl. intuition. Qed.
Lemma in_elem_snoc l n o : In n (elements_of (l ++ [o])) <-> In n (elements_of l) \/ o = AddSubsystem n true.
Proof. rewrite !in_elements, in_app_iff. simpl. intuition. Qed.

Lemma attr_build_gen l : incl l ops -> forall n, attr_spec l n (att (c_graph (build l)) n).
Proof.
  induction l as [|o l IH] using rev_ind; intros Hi n.
  - repeat split; simpl; tauto.
  - assert (Hi' : incl l ops) by (intros x Hx; apply Hi, in_or_app; auto).
    assert (Ho : In o ops) by (apply Hi, in_or_app; right; left; auto).
    specialize (IH Hi'). pose proof (IH n) as IHn. destruct IHn as [I1 [I2 [I3 I4]]].
    rewrite build_snoc. destruct o as [m b|s t].
    + assert (Hm : no_char "." m = true) by (eapply (wf_names _ WO); eauto).
      destruct b; cbn [apply_op add_subsystem c_graph].
      * rewrite att_add_node. cbn [a_type a_parent a_port or_else].
        destruct (String.eqb n m) eqn:E; seqb.
        -- subst m. destruct (IH n) as [J1 [J2 [J3 J4]]].
           assert (Hns : forall t, ~ In (ConnectFlow n t) l).
           { intros t Ht. apply Hi' in Ht. destruct (wf_conn _ WO _ _ Ht) as [a [p [b [q [-> _]]]]].
             rewrite path_dot in Hm. discriminate. }
           assert (Hnt : forall s, ~ In (ConnectFlow s n) l).
           { intros s Hs. apply Hi' in Hs. destruct (wf_conn _ WO _ _ Hs) as [a [p [b [q [_ [-> _]]]]]].
             rewrite path_dot in Hm. discriminate. }
           assert (Ha : att (c_graph (build l)) n = mkAttrs (Some T_element) None None \/ att (c_graph (build l)) n = no_attrs).
           { destruct (in_dec string_dec n (elements_of l)); auto. }
           repeat split.
           ++ intros t Ht. apply in_conn_snoc in Ht as [Ht|Ht]; [exfalso; eapply Hns; eauto|discriminate].
           ++ intros t Ht. apply in_conn_snoc in Ht as [Ht|Ht]; [exfalso; eapply Hnt; eauto|discriminate].
           ++ intros _. destruct Ha as [-> | ->]; reflexivity.
           ++ intros _ _ Hne. exfalso. apply Hne. apply in_elem_snoc; auto.
        -- repeat split.
           ++ intros t Ht. apply in_conn_snoc in Ht as [Ht|Ht]; [eauto|discriminate].
           ++ intros t Ht. apply in_conn_snoc in Ht as [Ht|Ht]; [eauto|discriminate].
           ++ intros He. apply in_elem_snoc in He as [He|He]; [auto|congruence].
           ++ intros H1 H2 H3. apply I4; intros; intros ?.
              ** eapply H1, in_conn_snoc; eauto.
              ** eapply H2, in_conn_snoc; eauto.
              ** apply H3, in_elem_snoc; auto.
      * repeat split.
        ++ intros t Ht. apply in_conn_snoc in Ht as [Ht|Ht]; [eauto|discriminate].
        ++ intros t Ht. apply in_conn_snoc in Ht as [Ht|Ht]; [eauto|discriminate].
        ++ intros He. apply in_elem_snoc in He as [He|He]; [auto|congruence].
        ++ intros H1 H2 H3. apply I4; intros; intros ?.
           ** eapply H1, in_conn_snoc; eauto.
           ** eapply H2, in_conn_snoc; eauto.
           ** apply H3, in_elem_snoc; auto.
    + cbn [apply_op]. unfold connect_flow. cbn [c_graph].
      rewrite !att_add_edge, !att_add_node. cbn [a_type a_parent a_port or_else].
      assert (Hst : s <> t) by (eapply (wf_dir _ WO); eauto).
      destruct (String.eqb n t) eqn:Et; [|destruct (String.eqb n s) eqn:Es]; seqb.
      * subst n. repeat split.
        -- intros t' Ht'. exfalso.
           apply in_conn_snoc in Ht' as [Ht'|Ht']; [|congruence].
           eapply (wf_dir _ WO t t' s t); eauto.
        -- intros He. exfalso. eapply (elem_not_tgt t s (l ++ [ConnectFlow s t])); eauto.
           apply in_conn_snoc; auto.
        -- intros _ H _. exfalso. eapply H, in_conn_snoc; eauto.
      * subst n. repeat split.
        -- intros s' Hs'. exfalso. apply in_conn_snoc in Hs' as [Hs'|Hs']; [|congruence].
           eapply (wf_dir _ WO s t s' s); eauto.
        -- intros He. exfalso. eapply (elem_not_src s t (l ++ [ConnectFlow s t])); eauto.
           apply in_conn_snoc; auto.
        -- intros H _ _. exfalso. eapply H, in_conn_snoc; eauto.
      * repeat split.
        -- intros t' Ht. apply in_conn_snoc in Ht as [Ht|Ht]; [eauto|congruence].
        -- intros t' Ht. apply in_conn_snoc in Ht as [Ht|Ht]; [eauto|congruence].
        -- intros He. apply in_elem_snoc in He as [He|He]; [auto|discriminate].
        -- intros H1 H2 H3. apply I4; intros; intros ?.
           ++ eapply H1, in_conn_snoc; eauto.
           ++ eapply H2, in_conn_snoc; eauto.
           ++ apply H3, in_elem_snoc; auto.
Qed.

Lemma attr_build n : attr_spec ops n (get_attr c n).
Proof. exact (attr_build_gen ops (incl_refl _) n). Qed.

Lemma conn_dec (f : build_op -> bool) : {existsb f ops = true} + {existsb f ops = false}.
Proof. destruct (existsb f ops); auto. Qed.

(* classification of a node *)
Inductive kind (n : string) : Prop :=
| k_src t : In (ConnectFlow n t) ops -> kind n
| k_tgt s : In (ConnectFlow s n) ops -> kind n
| k_elem : In n (elements_of ops) -> kind n
| k_none : (forall t, ~ In (ConnectFlow n t) ops) -> (forall s, ~ In (ConnectFlow s n) ops) ->
           ~ In n (elements_of ops) -> kind n.
Lemma kind_of n : kind n.
Proof.
  destruct (existsb (fun o => match o with ConnectFlow s t => String.eqb s n | _ => false end) ops) eqn:E1.
  - apply existsb_exists in E1 as [o [H1 H2]]. destruct o; [discriminate|]. seqb. subst. eapply k_src; eauto.
  - destruct (existsb (fun o => match o with ConnectFlow s t => String.eqb t n | _ => false end) ops) eqn:E2.
    + apply existsb_exists in E2 as [o [H1 H2]]. destruct o; [discriminate|]. seqb. subst. eapply k_tgt; eauto.
    + destruct (in_dec string_dec n (elements_of ops)); [apply k_elem; auto|].
      apply k_none; auto.
      * intros t Ht. apply Bool.not_true_iff_false in E1. apply E1, existsb_exists.
        exists (ConnectFlow n t). split; auto. apply String.eqb_refl.
      * intros s Hs. apply Bool.not_true_iff_false in E2. apply E2, existsb_exists.
        exists (ConnectFlow s n). split; auto. apply String.eqb_refl.
Qed.

Notation type n := (a_type (get_attr c n)).
Lemma type_out n : type n = Some T_out_port <-> exists t, In (ConnectFlow n t) ops.
Proof.
  destruct (attr_build n) as [A1 [A2 [A3 A4]]]. split.
  - intros H. destruct (kind_of n) as [t Ht|s Hs|He|H1 H2 H3]; eauto.
    + rewrite (A2 s Hs) in H. discriminate.
    + rewrite (A3 He) in H. discriminate.
    + rewrite (A4 H1 H2 H3) in H. discriminate.
  - intros [t Ht]. now rewrite (A1 t Ht).
Qed.
Lemma type_in n : type n = Some T_in_port <-> exists s, In (ConnectFlow s n) ops.
Proof.
  destruct (attr_build n) as [A1 [A2 [A3 A4]]]. split.
  - intros H. destruct (kind_of n) as [t Ht|s Hs|He|H1 H2 H3]; eauto.
    + rewrite (A1 t Ht) in H. discriminate.
    + rewrite (A3 He) in H. discriminate.
    + rewrite (A4 H1 H2 H3) in H. discriminate.
  - intros [t Ht]. now rewrite (A2 t Ht).
Qed.
Lemma type_elem n : type n = Some T_element <-> In n (elements_of ops).
Proof.
  destruct (attr_build n) as [A1 [A2 [A3 A4]]]. split.
  - intros H. destruct (kind_of n) as [t Ht|s Hs|He|H1 H2 H3]; eauto.
    + rewrite (A1 t Ht) in H. discriminate.
    + rewrite (A2 s Hs) in H. discriminate.
    + rewrite (A4 H1 H2 H3) in H. discriminate.
  - intros He. now rewrite (A3 He).
Qed.

Lemma src_path s t : In (ConnectFlow s t) ops -> exists a p, s = path a p /\ no_char "." a = true /\ no_char "." p = true.
Proof. intros H. destruct (wf_conn _ WO _ _ H) as [a [p [b [q [-> [-> [H1 [H2 [H3 H4]]]]]]]]]. eauto 6. Qed.
Lemma tgt_path s t : In (ConnectFlow s t) ops -> exists a p, t = path a p /\ no_char "." a = true /\ no_char "." p = true.
Proof. intros H. destruct (wf_conn _ WO _ _ H) as [a [p [b [q [-> [-> [H1 [H2 [H3 H4]]]]]]]]]. eauto 6. Qed.
Lemma parent_nodot_s s t : In (ConnectFlow s t) ops -> no_char "." (port_parent s) = true.
Proof. intros H. destruct (src_path s t H) as [a [p [-> [Ha Hp]]]]. now rewrite port_parent_path. Qed.
Lemma parent_nodot_t s t : In (ConnectFlow s t) ops -> no_char "." (port_parent t) = true.
Proof. intros H. destruct (tgt_path s t H) as [a [p [-> [Ha Hp]]]]. now rewrite port_parent_path. Qed.
Lemma src_dot s t : In (ConnectFlow s t) ops -> no_char "." s = false.
Proof. intros H. destruct (src_path s t H) as [a [p [-> _]]]. apply path_dot. Qed.
Lemma tgt_dot s t : In (ConnectFlow s t) ops -> no_char "." t = false.
Proof. intros H. destruct (tgt_path s t H) as [a [p [-> _]]]. apply path_dot. Qed.

Lemma build_wfg : wfg c.
Proof.
  split.
  - intros u v H. apply build_edges in H as [s [t [H1 H2]]]. split; apply build_nodes; right; exists s, t; split; auto; intuition.
  - intros q Hq. apply type_out in Hq as [t Ht]. exists (port_parent q), (port_name q).
    destruct (attr_build q) as [A1 _]. rewrite (A1 t Ht). cbn. split; auto. split; auto.
    apply build_edges. exists q, t. auto.
  - intros q l Hq He. apply type_out in Hq as [t0 Ht0]. apply type_in.
    apply build_edges in He as [s [t [H1 [[E1 E2]|[[E1 E2]|[E1 E2]]]]]]; subst.
    + exfalso. pose proof (src_dot _ _ Ht0). pose proof (parent_nodot_s _ _ H1). congruence.
    + eauto.
    + exfalso. eapply (wf_dir _ WO t t0 s t); eauto.
  - intros l Hl. apply type_in in Hl as [s Hs]. exists (port_parent l), (port_name l).
    destruct (attr_build l) as [_ [A2 _]]. rewrite (A2 s Hs). cbn. split; auto. split; auto.
    apply build_edges. exists s, l. auto.
  - intros l p Hl He. apply type_in in Hl as [s0 Hs0]. apply type_out.
    apply build_edges in He as [s [t [H1 [[E1 E2]|[[E1 E2]|[E1 E2]]]]]]; subst.
    + exfalso. eapply (wf_dir _ WO s t s0 s); eauto.
    + eauto.
    + exfalso. pose proof (tgt_dot _ _ Hs0). pose proof (parent_nodot_t _ _ H1). congruence.
  - intros l l' Hl Hl'. apply type_in in Hl as [s Hs]. apply type_in in Hl' as [s' Hs'].
    destruct (attr_build l) as [_ [A2 _]]. destruct (attr_build l') as [_ [A2' _]].
    rewrite (A2 s Hs), (A2' s' Hs'). cbn. intros E1 E2. inversion E1. inversion E2.
    destruct (tgt_path _ _ Hs) as [a [p [-> [Ha Hp]]]]. destruct (tgt_path _ _ Hs') as [a' [p' [-> [Ha' Hp']]]].
    rewrite !port_parent_path, !port_name_path in *; auto. congruence.
Qed.

(* ---- element level reachability ---- *)
Definition owner (n : string) : string := if no_char "." n then n else port_parent n.
Lemma owner_nodot n : no_char "." n = true -> owner n = n.
Proof. unfold owner. now intros ->. Qed.
Lemma owner_src s t : In (ConnectFlow s t) ops -> owner s = port_parent s.
Proof. intros H. unfold owner. now rewrite (src_dot _ _ H). Qed.
Lemma owner_tgt s t : In (ConnectFlow s t) ops -> owner t = port_parent t.
Proof. intros H. unfold owner. now rewrite (tgt_dot _ _ H). Qed.

Definition phase (n : string) : nat :=
  if no_char "." n then 1
  else if existsb (fun o => match o with ConnectFlow s _ => String.eqb s n | _ => false end) ops then 2 else 0.
Lemma phase_elem n : no_char "." n = true -> phase n = 1.
Proof. unfold phase. now intros ->. Qed.
Lemma phase_src s t : In (ConnectFlow s t) ops -> phase s = 2.
Proof.
  intros H. unfold phase. rewrite (src_dot _ _ H).
  assert (existsb (fun o => match o with ConnectFlow s' _ => String.eqb s' s | _ => false end) ops = true) as ->; auto.
  apply existsb_exists. exists (ConnectFlow s t). split; auto. apply String.eqb_refl.
Qed.
Lemma phase_tgt s t : In (ConnectFlow s t) ops -> phase t = 0.
Proof.
  intros H. unfold phase. rewrite (tgt_dot _ _ H).
  destruct (existsb (fun o => match o with ConnectFlow s' _ => String.eqb s' t | _ => false end) ops) eqn:E; auto.
  apply existsb_exists in E as [o [H1 H2]]. destruct o as [|s' t']; [discriminate|]. seqb. subst.
  exfalso. eapply (wf_dir _ WO t t' s t); eauto.
Qed.

Lemma flows_of s t : In (ConnectFlow s t) ops -> flows ops (port_parent s) (port_parent t).
Proof.
  intros H. destruct (wf_conn _ WO _ _ H) as [a [p [b [q [-> [-> [H1 [H2 [H3 H4]]]]]]]]].
  rewrite !port_parent_path; auto. exists p, q. exact H.
Qed.

Lemma edge_cases x y : edge g x y -> (owner x = owner y /\ phase x < phase y) \/ flows ops (owner x) (owner y).
Proof.
  intros H. apply build_edges in H as [s [t [H [[-> ->]|[[-> ->]|[-> ->]]]]]].
  - left. rewrite (owner_src _ _ H), owner_nodot, (phase_src _ _ H), phase_elem; eauto using parent_nodot_s.
  - right. rewrite (owner_src _ _ H), (owner_tgt _ _ H). apply flows_of; auto.
  - left. rewrite (owner_tgt _ _ H), owner_nodot, (phase_tgt _ _ H), phase_elem; eauto using parent_nodot_t.
Qed.
Lemma trans_cases x y : clos_trans _ (edge g) x y ->
  (owner x = owner y /\ phase x < phase y) \/ clos_trans _ (flows ops) (owner x) (owner y).
Proof.
  induction 1 as [x y H|x y z _ IH1 _ IH2].
  - destruct (edge_cases x y H); auto. right; apply t_step; auto.
  - destruct IH1 as [[E1 P1]|F1]; destruct IH2 as [[E2 P2]|F2].
    + left; split; [congruence|lia].
    + right. rewrite E1. auto.
    + right. rewrite <- E2. auto.
    + right. eapply t_trans; eauto.
Qed.
Lemma rt_t {A} (R : A -> A -> Prop) x y : clos_refl_trans _ R x y -> x = y \/ clos_trans _ R x y.
Proof.
  induction 1 as [x y H|x|x y z _ IH1 _ IH2]; auto.
  - right; apply t_step; auto.
  - destruct IH1 as [->|]; auto. destruct IH2 as [<-|]; auto. right; eapply t_trans; eauto.
Qed.
Lemma t_rt {A} (R : A -> A -> Prop) x y : clos_trans _ R x y -> clos_refl_trans _ R x y.
Proof. induction 1; [apply rt_step; auto|eapply rt_trans; eauto]. Qed.

Lemma flows_edges a b : flows ops a b -> clos_trans _ (edge g) a b.
Proof.
  intros [p [q H]]. unfold connected in H.
  destruct (wf_conn _ WO _ _ H) as [a' [p' [b' [q' [E1 [E2 [H1 [H2 [H3 H4]]]]]]]]].
  (* names a, b: the parents computed by the code *)
  assert (Hpp : port_parent (path a p) = a /\ port_parent (path b q) = b).
  { assert (Hd : forall x y, no_char "." x = true -> no_char "." y = true -> forall u w, path u w = path x y -> port_parent (path u w) = u).
    { intros x y Hx Hy u w E.
      assert (no_char "." u = true /\ no_char "." w = true) as [Hu Hw].
      { assert (Es : split_on "." (path u w) = [x; y]) by (rewrite E; apply path_split; auto).
        clear E H E1 E2. unfold path in Es.
        revert x Hx Es. induction u as [|ch u IHu]; intros x Hx Es.
        - simpl in Es. injection Es as <- Es. split; auto.
          destruct (no_char "." w) eqn:Ew; auto. exfalso.
          assert (forall w, no_char "." w = false -> 2 <= List.length (split_on "." w)) as HL.
          { clear. induction w as [|cc w IH]; simpl; [discriminate|].
            destruct (Ascii.eqb cc ".") eqn:Ec; simpl.
            - intros _. pose proof (split_on_ne "." w). destruct (split_on "." w); [congruence|simpl; lia].
            - intros Hw. specialize (IH Hw). destruct (split_on "." w); simpl in *; lia. }
          apply HL in Ew. rewrite Es in Ew. simpl in Ew. lia.
        - simpl in Es. destruct (Ascii.eqb ch ".") eqn:Ec.
          + injection Es as <- Es. exfalso.
            pose proof (f_equal (@List.length string) Es) as Hl. simpl in Hl.
            change (String "." w) with ("" ++ String "." w)%string in Hl.
            assert (2 <= List.length (split_on "." (u ++ String "." w))) as HL.
            { clear. induction u as [|cc u IH]; simpl.
              - pose proof (split_on_ne "." w). destruct (split_on "." w); [congruence|simpl; lia].
              - destruct (Ascii.eqb cc "."); simpl; [lia|]. destruct (split_on "." (u ++ String "." w)); simpl in *; lia. }
            simpl in Hl. lia.
          + destruct (split_on "." (u ++ String "." w)) as [|h tl] eqn:Eu; [exfalso; apply (split_on_ne "." (u ++ String "." w)); auto|].
            injection Es as Eh Et. subst x tl. simpl in Hx. apply andb_true_iff in Hx as [Hx1 Hx2].
            destruct (IHu h Hx2) as [G1 G2]. { now rewrite <- Eu. }
            split; auto. simpl. rewrite Ec. auto. }
      apply port_parent_path; auto. }
    split; [eapply (Hd a' p'); eauto|eapply (Hd b' q'); eauto]. }
  destruct Hpp as [Ha Hb].
  eapply t_trans; [apply t_step|eapply t_trans; apply t_step].
  - apply build_edges. exists (path a p), (path b q). split; [exact H|left]. split; [symmetry; exact Ha|reflexivity].
  - apply build_edges. exists (path a p), (path b q). split; [exact H|right; left]. auto.
  - apply build_edges. exists (path a p), (path b q). split; [exact H|right; right]. auto.
Qed.
Lemma flowsp_edges a b : clos_trans _ (flows ops) a b -> clos_trans _ (edge g) a b.
Proof. induction 1; [apply flows_edges; auto|eapply t_trans; eauto]. Qed.

Lemma flows_nodot a b : flows ops a b -> no_char "." a = true /\ no_char "." b = true.
Proof.
  intros H. pose proof H as [p [q Hc]]. unfold connected in Hc.
  pose proof (flows_edges a b H) as He.
  (* a is the parent of its path, hence dot free *)
  destruct (wf_conn _ WO _ _ Hc) as [a' [p' [b' [q' [E1 [E2 [H1 [H2 [H3 H4]]]]]]]]].
  assert (Hd : forall x y u w, no_char "." x = true -> no_char "." y = true -> path u w = path x y -> no_char "." u = true).
  { clear. intros x y u w Hx Hy E. revert x Hx E. induction u as [|ch u IH]; intros x Hx E; auto.
    unfold path in E. destruct x as [|cx x]; simpl in E.
    - injection E as -> E. exfalso. rewrite <- E in Hy. rewrite no_char_app in Hy. simpl in Hy.
      now rewrite andb_false_r in Hy.
    - injection E as -> E. simpl in Hx |- *. apply andb_true_iff in Hx as [Hx1 Hx2]. rewrite Hx1. simpl.
      eapply IH; eauto. }
  split; [eapply (Hd a' p'); eauto|eapply (Hd b' q'); eauto].
Qed.

Lemma upstream_iff n : no_char "." n = true ->
  (forall y, clos_refl_trans _ (edge g) y n -> ~ clos_trans _ (edge g) y y) <-> upstream_acyclic ops n.
Proof.
  intros Hn. split.
  - intros H a Ha Hc. apply (H a).
    + apply rt_t in Ha as [->|Ha]; [apply rt_refl|]. apply t_rt, flowsp_edges, Ha.
    + apply flowsp_edges, Hc.
  - intros H y Hy Hc. apply trans_cases in Hc as [[_ Hc]|Hc]; [lia|].
    apply (H (owner y)); auto.
    apply rt_t in Hy as [->|Hy]; [rewrite owner_nodot; auto; apply rt_refl|].
    apply trans_cases in Hy as [[E _]|Hy].
    + rewrite E, owner_nodot; auto. apply rt_refl.
    + rewrite (owner_nodot n Hn) in Hy. apply t_rt, Hy.
Qed.
End Wf.
