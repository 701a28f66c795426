(* Data invariants of Cycle.setup on well formed flow graphs. *)
From Verif Require Import Lib_Py.
From Verif Require Import Model_Graph Proofs_Graph Proofs_Setup.
From Coq Require Import Relations Permutation.

Section S.
Context {D : Type}.
Variable c : cycle.
Variable beh : @behaviour D.
Let g := c_graph c.
Notation edge := (edge g).
Notation type n := (a_type (get_attr c n)).
Notation parent n := (a_parent (get_attr c n)).
Notation port n := (a_port (get_attr c n)).

Record wfg : Prop := {
  W_edge_nodes : forall u v, edge u v -> In u (nodes g) /\ In v (nodes g);
  W_out : forall q, type q = Some T_out_port ->
            exists se op, parent q = Some se /\ port q = Some op /\ edge se q;
  W_links : forall q l, type q = Some T_out_port -> edge q l -> type l = Some T_in_port;
  W_in : forall l, type l = Some T_in_port ->
            exists te ip, parent l = Some te /\ port l = Some ip /\ edge l te;
  W_in_pred : forall l p, type l = Some T_in_port -> edge p l -> type p = Some T_out_port;
  W_inj : forall l l', type l = Some T_in_port -> type l' = Some T_in_port ->
            parent l = parent l' -> port l = port l' -> l = l' }.
Hypothesis W : wfg.

(* (te, ip) is the key of in-port node l *)
Definition key (l te ip : string) : Prop := parent l = Some te /\ port l = Some ip.

Lemma do_links_get src op links (fi fo fi' : @store D) :
  do_links c src op links fi fo = Ok fi' ->
  (forall te ip, (exists l, In l links /\ key l te ip) ->
      dget (fi' te) ip = dget (fo src) op /\ dget (fo src) op <> None) /\
  (forall te ip, (forall l, In l links -> ~ key l te ip) -> dget (fi' te) ip = dget (fi te) ip) /\
  (forall te, (forall l, In l links -> parent l <> Some te) -> fi' te = fi te).
Proof.
  revert fi. induction links as [|l ls IH]; intros fi H; cbn [do_links] in H.
  - inversion H; subst. repeat split; auto; destruct H0 as [l [[] _]].
  - destruct (parent l) as [te0|] eqn:Ep; [|discriminate].
    destruct (port l) as [ip0|] eqn:Eo; [|discriminate].
    destruct (negb (is_elem c src)); [discriminate|].
    destruct (dget (fo src) op) as [d|] eqn:Ed; [|discriminate].
    destruct (negb (is_elem c te0)); [discriminate|].
    apply IH in H. destruct H as [H1 [H2 H3]]. split; [|split].
    + intros te ip [l' [[<-|Hl] Hk]].
      * destruct Hk as [Hk1 Hk2]. rewrite Ep in Hk1. rewrite Eo in Hk2.
        inversion Hk1; inversion Hk2; subst te0 ip0.
        destruct (existsb (fun l => match parent l, port l with
                                    | Some a, Some b => String.eqb a te && String.eqb b ip
                                    | _, _ => false end) ls) eqn:Ee.
        -- apply existsb_exists in Ee as [l' [Hl' Hb]].
           destruct (parent l') eqn:E1; [|discriminate]. destruct (port l') eqn:E2; [|discriminate].
           apply andb_true_iff in Hb as [Hb1 Hb2]. seqb. subst.
           apply H1. exists l'. split; auto. split; auto.
        -- rewrite H2.
           ++ unfold supd. rewrite String.eqb_refl. rewrite dget_dset_same. split; [auto|discriminate].
           ++ intros l' Hl' [Hk3 Hk4]. apply Bool.not_true_iff_false in Ee. apply Ee.
              apply existsb_exists. exists l'. split; auto. rewrite Hk3, Hk4.
              now rewrite !String.eqb_refl.
      * apply H1. exists l'. auto.
    + intros te ip Hn. rewrite H2.
      * unfold supd. destruct (String.eqb te0 te) eqn:E; auto. seqb. subst te0.
        apply dget_dset_other. intros ->. apply (Hn l); [left; auto|]. split; auto.
      * intros l' Hl'. apply Hn. right; auto.
    + intros te Hn. rewrite H3.
      * unfold supd. destruct (String.eqb te0 te) eqn:E; auto. seqb. subst te0.
        exfalso. apply (Hn l); [left; auto|auto].
      * intros l' Hl'. apply Hn. right; auto.
Qed.

Variables fi0 fo0 : @store D.
Let s0 := init c fi0 fo0.

Record dinv (s : state D) : Prop := {
  I_topo : topo c (visited s);
  I_fo : forall n, ~ In n (map fst (calls s)) -> fo s n = fo0 n;
  I_calls : forall n d, In (n, d) (calls s) ->
      In n (visited s) /\ d = fi s n /\ beh n d (fo0 n) = Ok (fo s n);
  I_links : forall q l te ip, In q (visited s) -> type q = Some T_out_port -> edge q l -> key l te ip ->
      exists q' se' op' d, In q' (visited s) /\ type q' = Some T_out_port /\ edge q' l /\
         parent q' = Some se' /\ port q' = Some op' /\
         dget (fo s se') op' = Some d /\ dget (fi s te) ip = Some d;
  I_keep : forall te ip,
      (forall q l, In q (visited s) -> type q = Some T_out_port -> edge q l -> ~ key l te ip) ->
      dget (fi s te) ip = dget (fi0 te) ip;
  I_order : map fst (calls s) = filter (fun n => match type n with Some T_element => true | _ => false end) (visited s);
  I_elems : incl (map fst (calls s)) (c_elems c) }.

Lemma dinv_init : dinv s0.
Proof.
  split; cbn; auto; try tauto. intros x [].
Qed.

Lemma visited_parent v q se : topo c v -> In q v -> type q = Some T_out_port -> parent q = Some se -> In se v.
Proof.
  intros Ht Hq Hty Hp. destruct (W_out W q Hty) as [se' [op' [H1 [H2 H3]]]].
  rewrite Hp in H1. inversion H1; subst se'. eapply topo_closed; eauto.
Qed.

Lemma dinv_step s n q s' : dinv s -> outcome c beh s n q s' -> dinv s'.
Proof.
  intros HI Ho. pose proof (process_topo c beh s n q s' Ho (I_topo s HI)) as Ht'.
  destruct HI as [Ht Hfo Hcalls Hlinks Hkeep Hord Hel]. destruct Ho as [Hr E|Hr Hv E|d Hr Hnv Hty He Hb E|se op fi' Hr Hnv Hty Hp Ho Hd E|Hr Hnv Hty E]; subst s'; cbn in Ht'.
  - split; cbn; auto.
  - split; cbn; auto.
  - (* element *)
    assert (Hnc : ~ In n (map fst (calls s))).
    { rewrite Hord. intros Hc. apply filter_In in Hc. tauto. }
    split; cbn [visited fi fo calls]; auto.
    + intros m Hm. cbn in Hm. unfold supd. destruct (String.eqb n m) eqn:E; seqb.
      * exfalso; apply Hm; auto.
      * apply Hfo. tauto.
    + intros m dm [Hm|Hm].
      * inversion Hm; subst m dm. split; [left; auto|split; auto].
        unfold supd. rewrite String.eqb_refl. rewrite <- (Hfo n Hnc). auto.
      * destruct (Hcalls m dm Hm) as [H1 [H2 H3]]. split; [right; auto|split; auto].
        unfold supd. destruct (String.eqb n m) eqn:E; auto. seqb. subst. contradiction.
    + intros q0 l te ip Hq0 Ht0 He0 Hk.
      destruct Hq0 as [<-|Hq0]; [rewrite Hty in Ht0; discriminate|].
      destruct (Hlinks q0 l te ip Hq0 Ht0 He0 Hk) as [q' [se' [op' [d' [A1 [A2 [A3 [A4 [A5 [A6 A7]]]]]]]]]].
      exists q', se', op', d'. repeat split; auto; [right; auto|].
      unfold supd. destruct (String.eqb n se') eqn:E; auto. seqb. subst se'.
      exfalso. apply Hnv. eapply visited_parent; eauto.
    + intros te ip Hno. apply Hkeep. intros q0 l Hq0. apply Hno. right; auto.
    + cbn [map fst filter]. rewrite Hty. now rewrite Hord.
    + intros m [<-|Hm]; auto.
  - (* out port *)
    destruct (do_links_get _ _ _ _ _ _ Hd) as [D1 [D2 D3]].
    fold g in D1, D2, D3.
    split; cbn [visited fi fo calls]; auto.
    + intros m dm Hm. destruct (Hcalls m dm Hm) as [H1 [H2 H3]].
      split; [right; auto|split; auto]. rewrite D3; auto.
      intros l Hl Hpl. apply in_succs in Hl. apply Hnv.
      destruct (W_in W l (W_links W n l Hty Hl)) as [te [ip [E1 [E2 E3]]]].
      rewrite Hpl in E1. inversion E1; subst te.
      assert (In l (visited s)) by (eapply topo_closed; eauto).
      eapply topo_closed; eauto.
    + intros q0 l te ip Hq0 Ht0 He0 Hk.
      assert (Hl : type l = Some T_in_port) by (eapply (W_links W); eauto).
      destruct (in_dec string_dec l (succs g n)) as [Hin|Hin].
      * destruct (D1 te ip) as [G1 G2]; [exists l; auto|].
        destruct (dget (fo s se) op) as [dd|] eqn:Ed; [|congruence].
        exists n, se, op, dd. repeat split; auto; [left; auto|apply in_succs; auto].
      * destruct Hq0 as [<-|Hq0]; [exfalso; apply Hin, in_succs, He0|].
        destruct (Hlinks q0 l te ip Hq0 Ht0 He0 Hk) as [q' [se' [op' [d' [A1 [A2 [A3 [A4 [A5 [A6 A7]]]]]]]]]].
        exists q', se', op', d'. repeat split; auto; [right; auto|].
        rewrite D2; auto. intros l' Hl' [K1 K2]. apply Hin.
        assert (l = l') as ->; auto. destruct Hk as [K3 K4].
        apply (W_inj W); auto; [|congruence|congruence].
        exact (W_links W n l' Hty (proj1 (in_succs g n l') Hl')).
    + intros te ip Hno. rewrite D2.
      * apply Hkeep. intros q0 l Hq0. apply Hno. right; auto.
      * intros l Hl. exact (Hno n l (or_introl eq_refl) Hty (proj1 (in_succs g n l) Hl)).
    + cbn [filter]. rewrite Hty. auto.
  - (* in port *)
    split; cbn [visited fi fo calls]; auto.
    + intros m dm Hm. destruct (Hcalls m dm Hm) as [H1 [H2 H3]]. split; [right; auto|auto].
    + intros q0 l te ip Hq0 Ht0 He0 Hk. destruct Hq0 as [<-|Hq0]; [rewrite Hty in Ht0; discriminate|].
      destruct (Hlinks q0 l te ip Hq0 Ht0 He0 Hk) as [q' [se' [op' [d' [A1 A2]]]]].
      exists q', se', op', d'. split; [right; auto|auto].
    + intros te ip Hno. apply Hkeep. intros q0 l Hq0. apply Hno. right; auto.
    + cbn [filter]. rewrite Hty. auto.
Qed.

Lemma dinv_reach s : reaches c beh s0 s -> dinv s.
Proof.
  apply reaches_ind'.
  - apply dinv_init.
  - intros s1 n q s' H _ Ho. eapply dinv_step; eauto.
Qed.

Lemma topo_suffix v1 x v2 : topo c (v1 ++ x :: v2) -> topo c (x :: v2).
Proof. induction v1 as [|a v1 IH]; auto. intros H. apply IH. exact (proj1 H). Qed.

End S.
