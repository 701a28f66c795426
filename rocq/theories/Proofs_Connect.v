From Verif Require Import Lib_Py.
From Verif Require Import Model_Connect Model_Graph Spec_Flow Proofs_Build.
Open Scope list_scope.

Lemma cat_inj t a b : cat t a = cat t b -> a = b.
Proof. unfold cat. induction t; simpl; auto. intros H. injection H; auto. Qed.

(* what each flag is documented to control, by prefix of the variable name *)
Definition expected (connect_stat connect_tot connect_w : bool) (v : string) : bool :=
  if str_in v [":tot:composition"; ":stat:composition"] then true
  else if String.eqb v ":stat:W" then connect_w
  else if is_prefix ":tot:" v then connect_tot
  else if is_prefix ":stat:" v then connect_stat
  else false.
Definition unsupported : list string := [":stat:R"; ":stat:Wc"; ":FAR"].

Definition suffix_conns (cs ct cw : bool) : list (string * string) := flow_connections "" "" cs ct cw.
Lemma flow_conns_suffix src tgt cs ct cw :
  flow_connections src tgt cs ct cw =
  map (fun st => (cat src (fst st), cat tgt (snd st))) (suffix_conns cs ct cw).
Proof. destruct cs, ct, cw; reflexivity. Qed.

Definition suffixes := flow_in_inputs "".
Lemma flow_in_suffix fl : flow_in_inputs fl = map (cat fl) suffixes.
Proof. reflexivity. Qed.

Lemma conns_target src tgt cs ct cw v :
  In v suffixes -> ~ In v unsupported ->
  (In (cat tgt v) (map snd (flow_connections src tgt cs ct cw)) <-> expected cs ct cw v = true).
Proof.
  intros Hv Hu. rewrite flow_conns_suffix, map_map. cbn [snd].
  assert (In (cat tgt v) (map (fun x => cat tgt (snd x)) (suffix_conns cs ct cw)) <->
          In v (map snd (suffix_conns cs ct cw))) as ->.
  { rewrite !in_map_iff. split; intros [x [H1 H2]]; exists x; split; auto.
    - apply cat_inj in H1; auto.
    - now rewrite H1. }
  assert (H : forallb (fun v => str_in v unsupported ||
             Bool.eqb (str_in v (map snd (suffix_conns cs ct cw))) (expected cs ct cw v)) suffixes = true)
    by (destruct cs, ct, cw; reflexivity).
  rewrite forallb_forall in H. specialize (H v Hv).
  apply orb_true_iff in H as [H|H]; [apply str_in_iff in H; contradiction|].
  apply Bool.eqb_prop in H. rewrite <- H. now rewrite str_in_iff.
Qed.

Lemma conns_unsupported src tgt cs ct cw v : In v unsupported ->
  ~ In (cat tgt v) (map snd (flow_connections src tgt cs ct cw)).
Proof.
  intros Hu. rewrite flow_conns_suffix, map_map. cbn [snd]. intros Hin.
  apply in_map_iff in Hin as [x [H1 H2]]. apply cat_inj in H1. subst v.
  assert (H : forallb (fun x => negb (str_in (snd x) unsupported)) (suffix_conns cs ct cw) = true)
    by (destruct cs, ct, cw; reflexivity).
  rewrite forallb_forall in H. specialize (H x H2). apply negb_true_iff, str_in_false in H. contradiction.
Qed.

Fixpoint nodupb (l : list string) : bool :=
  match l with [] => true | x :: r => negb (str_in x r) && nodupb r end.
Lemma nodupb_NoDup l : nodupb l = true -> NoDup l.
Proof.
  induction l as [|x r IH]; simpl; constructor; apply andb_true_iff in H as [H1 H2]; auto.
  apply negb_true_iff, str_in_false in H1; auto.
Qed.
Lemma conns_once src tgt cs ct cw : NoDup (map snd (flow_connections src tgt cs ct cw)).
Proof.
  rewrite flow_conns_suffix, map_map. cbn [snd].
  assert (NoDup (map snd (suffix_conns cs ct cw))) as H.
  { apply nodupb_NoDup. destruct cs, ct, cw; reflexivity. }
  rewrite <- (map_map snd (cat tgt)).
  apply FinFun.Injective_map_NoDup; auto. intros a b; apply cat_inj.
Qed.
Lemma conns_same_name src tgt cs ct cw s t : In (s, t) (flow_connections src tgt cs ct cw) ->
  exists v, t = cat tgt v /\ In v suffixes /\
     (s = cat src v \/ v = ":stat:composition" /\ s = cat src ":tot:composition").
Proof.
  rewrite flow_conns_suffix. intros H. apply in_map_iff in H as [[a b] [E H]]. cbn in E. inversion E; subst.
  exists b. split; auto.
  assert (HB : forallb (fun x => str_in (snd x) suffixes &&
      (String.eqb (fst x) (snd x) || (String.eqb (snd x) ":stat:composition" && String.eqb (fst x) ":tot:composition")))
      (suffix_conns cs ct cw) = true) by (destruct cs, ct, cw; reflexivity).
  rewrite forallb_forall in HB. specialize (HB _ H). cbn [fst snd] in HB.
  apply andb_true_iff in HB as [H1 H2]. split; [apply str_in_iff; auto|].
  apply orb_true_iff in H2 as [H2|H2]; [left|right].
  - seqb. subst. auto.
  - apply andb_true_iff in H2 as [H2 H3]. seqb. subst. auto.
Qed.

(* ---- names ---- *)
Lemma port_parent_nested a b p : no_char "." a = true -> no_char "." b = true -> no_char "." p = true ->
  port_parent (path a (path b p)) = (a ++ b)%string.
Proof.
  intros Ha Hb Hp. unfold port_parent.
  assert (split_on "." (path a (path b p)) = [a; b; p]) as ->.
  { unfold path at 1. change ("." ++ path b p)%string with (String "." (path b p)).
    rewrite split_on_app, path_split; auto. }
  reflexivity.
Qed.

(* ---- options ---- *)
Lemma push_child_spec {V} (cyc : dict V) opts child child' : push_child cyc opts child = Ok child' ->
  dkeys child' = dkeys child /\
  (forall o, In o opts -> In o (dkeys child) -> dget child' o = dget cyc o) /\
  (forall o, ~ In o opts -> dget child' o = dget child o).
Proof.
  revert child. induction opts as [|o r IH]; intros child H; cbn [push_child] in H.
  - inversion H; subst. split; [reflexivity|split; [intros ? []|auto]].
  - destruct (dmem child o) eqn:Em.
    + destruct (dget cyc o) as [v|] eqn:Ev; [|discriminate].
      apply IH in H as [H1 [H2 H3]].
      assert (Hk : dkeys (dset child o v) = dkeys child) by (rewrite dkeys_dset, Em; auto).
      rewrite Hk in *. split; auto. split.
      * intros o' Ho' Hk'. destruct (in_dec string_dec o' r) as [Hr|Hr].
        -- apply H2; auto.
        -- rewrite H3 by auto. destruct Ho' as [->|?]; [|contradiction]. rewrite dget_dset_same; auto.
      * intros o' Ho'. rewrite H3 by (intros ?; apply Ho'; right; auto).
        apply dget_dset_other. intros ->. apply Ho'; left; auto.
    + apply IH in H as [H1 [H2 H3]]. split; auto. split.
      * intros o' [->|Ho'] Hk'; auto. exfalso.
        apply dget_keys in Hk' as [v Hv]. unfold dmem in Em. rewrite Hv in Em. discriminate.
      * intros o' Ho'. apply H3. intros ?; apply Ho'; right; auto.
Qed.

Lemma push_child_total {V} (cyc : dict V) opts child :
  (forall o, In o opts -> In o (dkeys cyc)) -> exists child', push_child cyc opts child = Ok child'.
Proof.
  revert child. induction opts as [|o r IH]; intros child H; cbn [push_child]; eauto.
  destruct (dmem child o).
  - destruct (proj2 (dget_keys cyc o) (H o (or_introl eq_refl))) as [v ->]. apply IH. intros; apply H; right; auto.
  - apply IH. intros; apply H; right; auto.
Qed.

Lemma push_options_spec {V} (cyc : dict V) children :
  (forall o, In o cycle_level_options -> In o (dkeys cyc)) ->
  exists children', push_options cyc children = Ok children' /\
    Forall2 (fun c c' => fst c' = fst c /\ dkeys (snd c') = dkeys (snd c) /\
       (forall o, In o cycle_level_options -> In o (dkeys (snd c)) -> dget (snd c') o = dget cyc o) /\
       (forall o, ~ In o cycle_level_options -> dget (snd c') o = dget (snd c) o)) children children'.
Proof.
  intros H. induction children as [|[n o] r [r' [E HF]]]; cbn [push_options].
  - exists []. split; auto.
  - destruct (push_child_total cyc cycle_level_options o H) as [o' Eo]. rewrite Eo, E.
    exists ((n, o') :: r'). split; auto. constructor; auto. cbn [fst snd].
    destruct (push_child_spec _ _ _ _ Eo) as [H1 [H2 H3]]. auto.
Qed.
