(* Lemmas and tactics for components that loop over user supplied names. *)
From Verif Require Export Lib_R.
Open Scope string_scope. Open Scope list_scope. Open Scope R_scope.

(* derivative of base(t) + sum of terms, termwise *)
Lemma dl_base_sum {A} (base : R -> R) (T : R -> A -> R) x db dT (l : list A) :
  is_derive base x db -> (forall a, In a l -> is_derive (fun t => T t a) x (dT a)) ->
  derivable_pt_lim (fun t => base t + lsum (T t) l) x (db + lsum dT l).
Proof.
  intros Hb Ht. apply is_derive_Reals. apply (is_derive_plus (V := R_NormedModule)); auto. apply is_derive_lsum; auto.
Qed.
(* only one term varies *)
Lemma dl_sum_one {A} (base : R) (T : R -> A -> R) x d (l : list A) a :
  NoDup l -> In a l -> (forall b t, In b l -> b <> a -> T t b = T x b) -> is_derive (fun t => T t a) x d ->
  derivable_pt_lim (fun t => base + lsum (T t) l) x d.
Proof.
  intros Hn Hi Hb Hd. apply is_derive_Reals. replace d with (0 + d) by lra.
  apply (is_derive_plus (V := R_NormedModule)). { apply (is_derive_const (V := R_NormedModule)). }
  apply is_derive_lsum_single with (a := a); auto. intros b Hb' Hne.
  apply (is_derive_ext (fun _ => T x b)). { intros t. symmetry. apply Hb; auto. }
  apply (is_derive_const (V := R_NormedModule)).
Qed.

(* reads of updates whose variables may share a user name *)
Ltac jund := rewrite jset_undeclared by
  (let E1 := fresh in let E2 := fresh in intros E1 E2; try discriminate; try congruence;
   inversion E1; inversion E2; subst; congruence).
Ltac vsimpj := repeat first [vstep | jund].

(* read one entry of a chain of writes; the goal is  jset (...) o i = v *)
Ltac vne := first [ discriminate | assumption | (apply not_eq_sym; assumption)
  | (let H := fresh in intro H; injection H; intros; subst; congruence) ].
Ltac jread := lazymatch goal with
  | |- jset ?J ?o ?i ?v ?o' ?i' = _ =>
      first [ refine (eq_trans (jset_eq _ _ _ _) _)
            | refine (eq_trans (jset_neq_o J o i v o' i' _) _); [vne|]
            | refine (eq_trans (jset_neq_i J o i v o' i' _) _); [vne|]
            | refine (eq_trans (jset_undeclared J o i v o' i' _) _);
              [let E1 := fresh in let E2 := fresh in intros E1 E2; injection E1; injection E2; intros; subst; congruence|] ];
      jread
  | _ => idtac
  end.
(* the same for upd (...) x = v *)
Ltac uread := lazymatch goal with
  | |- upd ?e ?x ?v ?y = _ =>
      first [ refine (eq_trans (upd_eq _ _ _) _)
            | refine (eq_trans (upd_neq e x v y _) _); [vne|] ]; uread
  | _ => idtac
  end.

(* membership in fixed ++ flat_map over names *)
Ltac inflat H :=
  lazymatch type of H with
  | In _ (_ :: _ ++ _) => apply in_inv in H; destruct H as [H|H]; [subst|inflat H]
  | In _ (_ :: _) => apply in_inv in H; destruct H as [H|H]; [subst|inflat H]
  | In _ (_ ++ _) => apply in_app_or in H; destruct H as [H|H]; inflat H
  | In _ (flat_map _ _) => let b := fresh "b" in let Hb := fresh "Hb" in
      apply in_flat_map in H; destruct H as [b [Hb H]]; inflat H
  | In _ (map _ _) => let b := fresh "b" in let Hb := fresh "Hb" in
      apply in_map_iff in H; destruct H as [b [H Hb]]; subst
  | In _ [] => destruct H
  end.

Lemma not_declares_app ds1 ds2 o i : ~ declares (ds1 ++ ds2) o i -> ~ declares ds1 o i /\ ~ declares ds2 o i.
Proof.
  intros H. split; intros [os [is [v [Hi Hr]]]]; apply H; exists os, is, v; split; auto; apply in_or_app; auto.
Qed.
Lemma not_declares_flat {A} (f : A -> list decl) l a o i : ~ declares (flat_map f l) o i -> In a l -> ~ declares (f a) o i.
Proof.
  intros H Ha [os [is [v [Hi Hr]]]]. apply H. exists os, is, v. split; auto. apply in_flat_map; eauto.
Qed.
Lemma snd_zero_cons (os is : list var) v (ds : list decl) :
  v = 0 -> (forall d, In d ds -> snd d = 0) -> forall d, In d ((os, is, v) :: ds) -> snd d = 0.
Proof. intros Hv H d [<-|Hd]; auto. Qed.
Lemma snd_zero_app (d1 d2 : list decl) : (forall d, In d d1 -> snd d = 0) -> (forall d, In d d2 -> snd d = 0) ->
  forall d, In d (d1 ++ d2) -> snd d = 0.
Proof. intros H1 H2 d Hd. apply in_app_or in Hd. destruct Hd; auto. Qed.
Lemma snd_zero_flat {A} (f : A -> list decl) l : (forall a d, In d (f a) -> snd d = 0) ->
  forall d, In d (flat_map f l) -> snd d = 0.
Proof. intros H d Hd. apply in_flat_map in Hd. destruct Hd as [a [_ Hd]]. eauto. Qed.
Ltac zero_decls := apply jinit_zero;
  repeat first [ apply snd_zero_cons; [reflexivity|] | apply snd_zero_app
               | apply snd_zero_flat; intros ? | (intros ?d []) ].

Lemma is_derive_rpow_scale a c y x : 0 < x / c -> c <> 0 ->
  is_derive (fun t => a * rpow (t / c) y) x (a * (y * rpow (x / c) (y - 1) / c)).
Proof.
  intros Hx Hc. apply is_derive_scal.
  replace (y * rpow (x / c) (y - 1) / c) with ((1 / c) * (y * rpow (x / c) (y - 1))) by (field; auto).
  apply (is_derive_comp (V := R_NormedModule) (fun u => rpow u y) (fun t => t / c)).
  - apply is_derive_rpow. auto.
  - auto_derive; auto; try (field; auto).
Qed.
Lemma rpow_m2 x : 0 < x -> rpow x (- 2) = / (x ^ 2).
Proof.
  intros H. replace (-2) with (- (2)) by lra. rewrite rpow_opp by auto. f_equal. replace 2 with (1 + 1) by lra. rewrite rpow_plus, rpow_1 by auto. ring.
Qed.
Lemma is_derive_val (f : R -> R) (x l l' : R) : is_derive f x l -> l = l' -> is_derive f x l'.
Proof. intros H <-. exact H. Qed.
Lemma jac_exact_intro0 (c : comp) (dom : env -> Prop) : (forall o i, jinit (decls c) o i = 0) ->
  (forall e old o i, dom e -> In o (outs c) -> In i (ins c) ->
    (exists v, (forall J, partials c e J o i = v) /\
       derivable_pt_lim (fun t => compute c (upd e i t) old o) (e i) v) \/
    ((forall e J, partials c e J o i = J o i) /\
       derivable_pt_lim (fun t => compute c (upd e i t) old o) (e i) 0)) ->
  jac_exact c dom.
Proof.
  intros Hz H. apply jac_exact_intro. intros e old o i Hd Ho Hi. rewrite Hz. apply H; auto.
Qed.
