(* Lemmas about the Python vocabulary of Spec_Py. *)
From Verif Require Export Spec_Py.

Lemma eqb_refl' x : String.eqb x x = true.  Proof. apply String.eqb_refl. Qed.
Lemma eqb_iff x y : String.eqb x y = true <-> x = y.
Proof. apply String.eqb_eq. Qed.
Lemma eqb_neq' x y : String.eqb x y = false <-> x <> y.
Proof. apply String.eqb_neq. Qed.

Ltac seqb :=
  repeat match goal with
  | |- context [String.eqb ?x ?x] => rewrite (String.eqb_refl x)
  | H : context [String.eqb ?x ?x] |- _ => rewrite (String.eqb_refl x) in H
  | H : String.eqb _ _ = true |- _ => apply String.eqb_eq in H
  | H : String.eqb _ _ = false |- _ => apply String.eqb_neq in H
  end.

Lemma str_in_iff x l : str_in x l = true <-> In x l.
Proof.
  unfold str_in. rewrite existsb_exists. split.
  - intros [y [Hy He]]. seqb. subst; auto.
  - intros H; exists x; split; auto; apply String.eqb_refl.
Qed.
Lemma str_in_false x l : str_in x l = false <-> ~ In x l.
Proof.
  rewrite <- str_in_iff. destruct (str_in x l); split; intros; try congruence.
Qed.

Section Dict.
Context {A : Type}.
Implicit Types d : dict A.

Lemma dget_dset d k v k' :
  dget (dset d k v) k' = if String.eqb k' k then Some v else dget d k'.
Proof.
  induction d as [|[k0 v0] r IH]; simpl.
  - destruct (String.eqb k' k); reflexivity.
  - destruct (String.eqb k k0) eqn:E; simpl.
    + seqb; subst k0. destruct (String.eqb k' k) eqn:E'; reflexivity.
    + rewrite IH. destruct (String.eqb k' k0) eqn:E0; destruct (String.eqb k' k) eqn:E1; auto.
      seqb. congruence.
Qed.
Lemma dget_dset_same d k v : dget (dset d k v) k = Some v.
Proof. rewrite dget_dset. now rewrite String.eqb_refl. Qed.
Lemma dget_dset_other d k v k' : k' <> k -> dget (dset d k v) k' = dget d k'.
Proof. intros H. rewrite dget_dset. apply String.eqb_neq in H. now rewrite H. Qed.

Lemma dget_In d k v : dget d k = Some v -> In (k, v) d.
Proof.
  induction d as [|[k0 v0] r IH]; simpl; [discriminate|].
  destruct (String.eqb k k0) eqn:E; seqb; intros H.
  - inversion H; subst; auto.
  - auto.
Qed.
Lemma dget_keys d k : (exists v, dget d k = Some v) <-> In k (dkeys d).
Proof.
  unfold dkeys. induction d as [|[k0 v0] r IH]; simpl.
  - split; [intros [v H]; discriminate | tauto].
  - destruct (String.eqb k k0) eqn:E; seqb.
    + subst; split; eauto.
    + rewrite IH. split; intros H; auto. destruct H; congruence.
Qed.
Lemma dget_None d k : dget d k = None <-> ~ In k (dkeys d).
Proof.
  rewrite <- dget_keys. destruct (dget d k) as [v|] eqn:E; split; intros H.
  - discriminate.
  - exfalso; apply H; eauto.
  - intros [v Hv]; discriminate.
  - reflexivity.
Qed.
Lemma In_dget d k v : dwf d -> In (k, v) d -> dget d k = Some v.
Proof.
  unfold dwf, dkeys. induction d as [|[k0 v0] r IH]; simpl; [tauto|].
  intros Hn [H|H].
  - inversion H; subst. now rewrite String.eqb_refl.
  - inversion Hn as [|? ? Hni Hr]; subst. destruct (String.eqb k k0) eqn:E; auto.
    seqb; subst. exfalso; apply Hni. apply in_map_iff. exists (k0, v); auto.
Qed.
Lemma dkeys_dset d k v :
  dkeys (dset d k v) = if dmem d k then dkeys d else (dkeys d ++ [k])%list.
Proof.
  unfold dkeys, dmem. induction d as [|[k0 v0] r IH]; simpl; auto.
  destruct (String.eqb k k0) eqn:E; simpl; auto.
  rewrite IH. destruct (dget r k); reflexivity.
Qed.
Lemma in_dkeys_dset d k v k' : In k' (dkeys (dset d k v)) <-> In k' (dkeys d) \/ k' = k.
Proof.
  rewrite <- !dget_keys, dget_dset. destruct (String.eqb k' k) eqn:E; seqb; split; intros H; eauto.
  destruct H as [H|H]; [auto|congruence].
Qed.
Lemma dwf_dset d k v : dwf d -> dwf (dset d k v).
Proof.
  unfold dwf. intros H. rewrite dkeys_dset. destruct (dmem d k) eqn:E; auto.
  assert (~ In k (dkeys d)) as Hk.
  { apply dget_None. unfold dmem in E. destruct (dget d k); congruence. }
  clear E. induction (dkeys d) as [|x l IH]; simpl.
  - constructor; auto.
  - inversion H; subst. constructor.
    + rewrite in_app_iff. simpl. intros [Hx|[Hx|[]]]; auto. subst; apply Hk; left; auto.
    + apply IH; auto. intros ?; apply Hk; right; auto.
Qed.
Lemma dwf_nil : dwf (@nil (string * A)).  Proof. constructor. Qed.

Lemma dwf_dupdate d d2 : dwf d -> dwf (dupdate d d2).
Proof.
  unfold dupdate. revert d. induction d2 as [|[k v] r IH]; simpl; auto.
  intros d H. apply IH, dwf_dset, H.
Qed.
Lemma dupdate_keys d d2 k : In k (dkeys (dupdate d d2)) <-> In k (dkeys d) \/ In k (dkeys d2).
Proof.
  unfold dupdate. revert d. induction d2 as [|[k0 v0] r IH]; simpl; intros d.
  - tauto.
  - rewrite IH, in_dkeys_dset. simpl. intuition congruence.
Qed.
Lemma dget_dupdate d d2 k :
  dwf d2 -> dget (dupdate d d2) k = match dget d2 k with Some v => Some v | None => dget d k end.
Proof.
  unfold dupdate. revert d. induction d2 as [|[k0 v0] r IH]; simpl; intros d H; auto.
  inversion H as [|? ? Hni Hr]; subst. rewrite IH by exact Hr.
  destruct (String.eqb k k0) eqn:E; seqb.
  - subst. assert (dget r k0 = None) as -> by (apply dget_None; exact Hni).
    apply dget_dset_same.
  - destruct (dget r k); auto. apply dget_dset_other; auto.
Qed.
End Dict.

(* ---- strings ---- *)
Lemma split_on_ne sep s : split_on sep s <> [].
Proof. destruct s as [|c r]; simpl; [discriminate|]. destruct (Ascii.eqb c sep); [discriminate|].
  destruct (split_on sep r); discriminate. Qed.

Lemma split_no_char sep s : no_char sep s = true -> split_on sep s = [s].
Proof.
  induction s as [|c r IH]; simpl; auto. rewrite andb_true_iff, negb_true_iff.
  intros [H1 H2]. rewrite H1, IH; auto.
Qed.
Lemma append_assoc a b c : ((a ++ b) ++ c = a ++ (b ++ c))%string.
Proof. induction a; simpl; congruence. Qed.
Lemma append_nil_r a : (a ++ "" = a)%string.
Proof. induction a; simpl; congruence. Qed.

Lemma split_on_app sep a b :
  no_char sep a = true -> split_on sep (a ++ String sep b) = a :: split_on sep b.
Proof.
  induction a as [|c r IH]; simpl.
  - rewrite Ascii.eqb_refl. auto.
  - rewrite andb_true_iff, negb_true_iff. intros [H1 H2]. rewrite H1, IH; auto.
Qed.
Lemma no_char_app c a b : no_char c (a ++ b) = no_char c a && no_char c b.
Proof. induction a as [|x r IH]; simpl; auto. rewrite IH. now rewrite andb_assoc. Qed.
