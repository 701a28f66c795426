(* Lemmas and tactics for numeric components. *)
From Coquelicot Require Export Coquelicot.
From Verif Require Export Spec_Comp.
Export ListNotations.
From Coq Require Export Lia Permutation.
Open Scope list_scope.
Open Scope R_scope.

Lemma upd_eq e x v : upd e x v x = v.
Proof. unfold upd. destruct (var_eq_dec x x); congruence. Qed.
Lemma upd_neq e x v y : x <> y -> upd e x v y = e y.
Proof. unfold upd. destruct (var_eq_dec x y); congruence. Qed.
Lemma upd_id e x : forall y, upd e x (e x) y = e y.
Proof. intros y. unfold upd. destruct (var_eq_dec x y); congruence. Qed.
Lemma jset_eq J o i v : jset J o i v o i = v.
Proof. unfold jset. destruct (var_eq_dec o o); try congruence. destruct (var_eq_dec i i); congruence. Qed.
Lemma jset_neq_o J o i v o' i' : o <> o' -> jset J o i v o' i' = J o' i'.
Proof. unfold jset. destruct (var_eq_dec o o'); congruence. Qed.
Lemma jset_neq_i J o i v o' i' : i <> i' -> jset J o i v o' i' = J o' i'.
Proof. unfold jset. destruct (var_eq_dec o o'); auto. destruct (var_eq_dec i i'); congruence. Qed.

(* simplify reads of updated environments/Jacobians *)
Ltac vneq := solve [discriminate | congruence | assumption | (apply not_eq_sym; assumption)
                   | (let H := fresh in intro H; injection H; intros; subst; congruence) ].
Ltac vstep :=
  match goal with
  | |- context [upd ?e ?x ?v ?x] => rewrite (upd_eq e x v)
  | |- context [upd ?e ?x ?v ?y] =>
      let H := fresh in assert (H : x <> y) by vneq; rewrite (upd_neq e x v y H); clear H
  | |- context [jset ?J ?o ?i ?v ?o ?i] => rewrite (jset_eq J o i v)
  | |- context [jset ?J ?o ?i ?v ?o' ?i'] =>
      first [ let H := fresh in assert (H : o <> o') by vneq; rewrite (jset_neq_o J o i v o' i' H); clear H
            | let H := fresh in assert (H : i <> i') by vneq; rewrite (jset_neq_i J o i v o' i' H); clear H ]
  end.
Ltac vsimp := repeat vstep.

(* folds seen through a projection *)
Section Fold.
Context {A C : Type} (f : A -> C -> A) (pi : A -> R).
Lemma fold_skip l a : (forall b a', In b l -> pi (f a' b) = pi a') -> pi (fold_left f l a) = pi a.
Proof.
  revert a. induction l as [|c r IH]; intros a H; simpl; auto.
  rewrite IH; [apply H; simpl; auto|]. intros; apply H; simpl; auto.
Qed.
Lemma fold_hit (dec : forall x y : C, {x = y} + {x <> y}) l a b0 v : In b0 l ->
  (forall b a', In b l -> b <> b0 -> pi (f a' b) = pi a') -> (forall a', pi (f a' b0) = v) ->
  pi (fold_left f l a) = v.
Proof.
  revert a. induction l as [|c r IH]; intros a Hi Hs Hv; [destruct Hi|]. cbn [fold_left].
  destruct (in_dec dec b0 r) as [Hr|Hr].
  - apply IH; auto. intros; apply Hs; simpl; auto.
  - destruct Hi as [->|Hi]; [|contradiction]. rewrite fold_skip; auto.
    intros b a' Hb. apply Hs; simpl; auto. intros ->; contradiction.
Qed.
Lemma fold_acc l a (g : C -> R) : (forall b a', In b l -> pi (f a' b) = pi a' + g b) ->
  pi (fold_left f l a) = pi a + lsum g l.
Proof.
  revert a. induction l as [|c r IH]; intros a H; simpl; [lra|].
  rewrite IH; [|intros; apply H; simpl; auto]. rewrite H; simpl; auto. lra.
Qed.
End Fold.

(* sums *)
Section Sum.
Context {A : Type}.
Implicit Types (f g : A -> R) (l : list A).
Lemma lsum_ext f g l : (forall a, In a l -> f a = g a) -> lsum f l = lsum g l.
Proof. induction l; simpl; intros H; auto. rewrite H, IHl; auto. Qed.
Lemma lsum_plus f g l : lsum (fun a => f a + g a) l = lsum f l + lsum g l.
Proof. induction l; simpl; [lra|]. rewrite IHl; lra. Qed.
Lemma lsum_minus f g l : lsum (fun a => f a - g a) l = lsum f l - lsum g l.
Proof. induction l; simpl; [lra|]. rewrite IHl; lra. Qed.
Lemma lsum_scal c f l : lsum (fun a => c * f a) l = c * lsum f l.
Proof. induction l; simpl; [lra|]. rewrite IHl; lra. Qed.
Lemma lsum_scal_r c f l : lsum (fun a => f a * c) l = lsum f l * c.
Proof. induction l; simpl; [lra|]. rewrite IHl; lra. Qed.
Lemma lsum_div c f l : lsum (fun a => f a / c) l = lsum f l / c.
Proof. unfold Rdiv. apply lsum_scal_r. Qed.
Lemma lsum_opp f l : lsum (fun a => - f a) l = - lsum f l.
Proof. induction l; simpl; [lra|]. rewrite IHl; lra. Qed.
Lemma lsum_0 f l : (forall a, In a l -> f a = 0) -> lsum f l = 0.
Proof. induction l; simpl; intros H; auto. rewrite H, IHl; auto; lra. Qed.
Lemma lsum_app f l1 l2 : lsum f (l1 ++ l2) = lsum f l1 + lsum f l2.
Proof. induction l1; simpl; [lra|]. rewrite IHl1; lra. Qed.
Lemma lsum_single f l a : NoDup l -> In a l -> (forall b, In b l -> b <> a -> f b = 0) -> lsum f l = f a.
Proof.
  induction l as [|c r IH]; intros Hn Hi Hz; [destruct Hi|]. inversion Hn; subst. simpl.
  destruct Hi as [->|Hi].
  - rewrite (lsum_0 f r); [lra|]. intros b Hb. apply Hz; simpl; auto. intros ->; contradiction.
  - rewrite IH; auto. 2: intros; apply Hz; simpl; auto.
    rewrite Hz; simpl; auto; [lra|]. intros ->; contradiction.
Qed.
Lemma lsum_nonneg f l : (forall a, In a l -> 0 <= f a) -> 0 <= lsum f l.
Proof. induction l; simpl; intros H; [lra|]. assert (0 <= f a) by auto. assert (0 <= lsum f l) by auto. lra. Qed.
Lemma lsum_pos f l : l <> [] -> (forall a, In a l -> 0 < f a) -> 0 < lsum f l.
Proof.
  destruct l as [|a r]; [congruence|]. intros _ H. simpl. assert (0 < f a) by (apply H; simpl; auto).
  assert (0 <= lsum f r). { apply lsum_nonneg. intros; left; apply H; simpl; auto. } lra.
Qed.
Lemma lsum_le f g l : (forall a, In a l -> f a <= g a) -> lsum f l <= lsum g l.
Proof. induction l; simpl; intros H; [lra|]. assert (f a <= g a) by auto. assert (lsum f l <= lsum g l) by auto. lra. Qed.
Lemma lsum_map {C} (h : C -> A) f (l : list C) : lsum f (map h l) = lsum (fun c => f (h c)) l.
Proof. induction l; simpl; auto. now rewrite IHl. Qed.
Lemma lsum_const c l : lsum (fun _ : A => c) l = INR (List.length l) * c.
Proof. induction l; [simpl; lra|]. cbn [List.length lsum]. rewrite S_INR, IHl. lra. Qed.
Lemma lsum_upd f f' l a : NoDup l -> In a l -> (forall b, In b l -> b <> a -> f' b = f b) ->
  lsum f' l = lsum f l - f a + f' a.
Proof.
  intros Hn Hi H.
  assert (E : lsum (fun b => f' b - f b) l = f' a - f a).
  { apply (lsum_single (fun b => f' b - f b)); auto. intros b Hb Hne. rewrite H; auto. lra. }
  rewrite lsum_minus in E. lra.
Qed.
Lemma is_derive_lsum (F : R -> A -> R) (dF : A -> R) x l :
  (forall a, In a l -> is_derive (fun t => F t a) x (dF a)) ->
  is_derive (fun t => lsum (F t) l) x (lsum dF l).
Proof.
  induction l as [|a r IH]; intros H; simpl.
  - apply (is_derive_const (V := R_NormedModule)).
  - apply (is_derive_plus (V := R_NormedModule)); [apply H; simpl; auto|]. apply IH. intros; apply H; simpl; auto.
Qed.
End Sum.
Lemma lsum_swap {A C} (f : A -> C -> R) l1 l2 :
  lsum (fun a => lsum (f a) l2) l1 = lsum (fun c => lsum (fun a => f a c) l1) l2.
Proof.
  induction l1; simpl.
  - symmetry. apply lsum_0; auto.
  - rewrite IHl1. symmetry. apply lsum_plus.
Qed.
Lemma lsum_perm {A} (f : A -> R) l1 l2 : Permutation l1 l2 -> lsum f l1 = lsum f l2.
Proof. induction 1; simpl; lra. Qed.

(* derivative plumbing *)
Lemma dl_ext f g x l : (forall t, f t = g t) -> derivable_pt_lim g x l -> derivable_pt_lim f x l.
Proof.
  intros H D eps He. destruct (D eps He) as [d Hd]. exists d. intros h Hh Hl. rewrite !H. auto.
Qed.
Lemma dl_val f x l l' : l = l' -> derivable_pt_lim f x l -> derivable_pt_lim f x l'.
Proof. intros ->; auto. Qed.
Lemma dl_const c x : derivable_pt_lim (fun _ => c) x 0.
Proof. apply derivable_pt_lim_const. Qed.
(* agreement in a neighbourhood *)
Lemma dl_local f g x l : (exists d : posreal, forall t, Rabs (t - x) < d -> f t = g t) ->
  derivable_pt_lim g x l -> derivable_pt_lim f x l.
Proof.
  intros [d Hd] D. apply is_derive_Reals. apply is_derive_Reals in D.
  eapply is_derive_ext_loc; [|exact D]. exists d. intros y Hy. symmetry. apply Hd. exact Hy.
Qed.

Lemma jconst c o i hist e : (forall e J, partials c e J o i = J o i) ->
  jac_after c hist e o i = jinit (decls c) o i.
Proof.
  intros H. unfold jac_after. rewrite H.
  apply (fold_skip (fun J e' => partials c e' J) (fun J => J o i)). intros; apply H.
Qed.

(* a derivative entry is either rewritten at every linearisation or never *)
Lemma jac_exact_intro (c : comp) (dom : env -> Prop) :
  (forall e old o i, dom e -> In o (outs c) -> In i (ins c) ->
    (exists v, (forall J, partials c e J o i = v) /\
       derivable_pt_lim (fun t => compute c (upd e i t) old o) (e i) v) \/
    ((forall e J, partials c e J o i = J o i) /\
       derivable_pt_lim (fun t => compute c (upd e i t) old o) (e i) (jinit (decls c) o i))) ->
  jac_exact c dom.
Proof.
  intros H hist e old o i Hd Ho Hi. destruct (H e old o i Hd Ho Hi) as [[v [Hv D]]|[Hc D]].
  - unfold jac_after. rewrite Hv. exact D.
  - rewrite jconst; auto.
Qed.

Lemma jac_exact_on_intro (c : comp) (dom : env -> Prop) (sel : var -> var -> Prop) :
  (forall e old o i, dom e -> In o (outs c) -> In i (ins c) -> sel o i ->
    (exists v, (forall J, partials c e J o i = v) /\
       derivable_pt_lim (fun t => compute c (upd e i t) old o) (e i) v) \/
    ((forall e J, partials c e J o i = J o i) /\
       derivable_pt_lim (fun t => compute c (upd e i t) old o) (e i) (jinit (decls c) o i))) ->
  jac_exact_on c dom sel.
Proof.
  intros H hist e old o i Hd Ho Hi Hs. destruct (H e old o i Hd Ho Hi Hs) as [[v [Hv D]]|[Hc D]].
  - unfold jac_after. rewrite Hv. exact D.
  - rewrite jconst; auto.
Qed.

Lemma not_declares_cons os is v ds o i : ~ declares ((os, is, v) :: ds) o i ->
  (In o os -> In i is -> False) /\ ~ declares ds o i.
Proof.
  intros H. split.
  - intros Ho Hi. apply H. exists os, is, v. simpl; auto.
  - intros [os' [is' [v' [H1 H2]]]]. apply H. exists os', is', v'. simpl; auto.
Qed.

Lemma jset_undeclared J o i v o' i' : (o = o' -> i = i' -> False) -> jset J o i v o' i' = J o' i'.
Proof. intros H. unfold jset. destruct (var_eq_dec o o'); auto. destruct (var_eq_dec i i'); auto. destruct H; auto. Qed.

Lemma jinit_nil o i : jinit [] o i = 0. Proof. reflexivity. Qed.
Lemma jinit_snoc ds os is v o i : jinit (ds ++ [(os, is, v)]) o i =
  if in_dec var_eq_dec o os then if in_dec var_eq_dec i is then v else jinit ds o i else jinit ds o i.
Proof. unfold jinit. rewrite fold_left_app. reflexivity. Qed.
Lemma in_dec_true {T} (x : var) l (a b : T) : In x l -> (if in_dec var_eq_dec x l then a else b) = a.
Proof. intros H. destruct (in_dec var_eq_dec x l); tauto. Qed.
Lemma in_dec_false {T} (x : var) l (a b : T) : ~ In x l -> (if in_dec var_eq_dec x l then a else b) = b.
Proof. intros H. destruct (in_dec var_eq_dec x l); tauto. Qed.

(* ---- tactics for components whose variables are all literal names ---- *)
Ltac inlist H := cbn [In app] in H; repeat (destruct H as [H|H]; [subst|]); [..|destruct H].
(* the value of jinit at a literal pair *)
Ltac jinit_tac := unfold jinit; cbn [fold_left app];
  repeat (first [ rewrite in_dec_true by (cbn [In]; tauto)
                | rewrite in_dec_false by (cbn [In]; intuition discriminate) ]).
(* derivative of a literal expression; [un] unfolds the model, [fin] closes side goals *)
Ltac dstart un := eapply dl_ext; [intros ?t; un; vsimp; reflexivity|].
Ltac dfin fin := apply is_derive_Reals; auto_derive; [ fin | try (field; fin) ].

Ltac cunfold c := unfold c in *; cbn [outs ins compute partials decls] in *.
Ltac jexact c un fin :=
  apply jac_exact_intro; intros ?e ?old ?o ?i ?Hd ?Ho ?Hi; cunfold c;
  match goal with Ho : In ?o _, Hi : In ?i _ |- _ => inlist Ho; inlist Hi end;
  (first [ left; eexists; split; [intros ?J; un; vsimp; reflexivity|]
         | right; split; [intros ?e0 ?J; un; vsimp; reflexivity|]; jinit_tac ]);
  dstart un; dfin fin.
Ltac jdecl_split := cbn [app] in *; repeat match goal with
  | H : ~ declares (_ :: _) _ _ |- _ => apply not_declares_cons in H; destruct H as [?Hn H] end.
Ltac jdecl_fin := repeat rewrite jset_undeclared; try reflexivity;
  intros <- <-; match goal with H : In _ _ -> In _ _ -> False |- _ => solve [apply H; cbn [In app]; tauto] end.
Ltac jdeclared c un := intros ?e ?J ?o ?i ?Hn; cunfold c; jdecl_split; un; jdecl_fin.
Ltac wall c un := intros ?e ?e' ?old ?old' ?o ?Ho ?He; cunfold c; un;
  match goal with Ho : In _ _ |- _ => inlist Ho end; vsimp;
  match goal with He : forall i, In i _ -> _ = _ |- _ => rewrite !He by (cbn [In app]; tauto) end; reflexivity.
Ltac cok c un fin := split; [jexact c un fin | split; [jdeclared c un | wall c un]].

Lemma is_derive_lsum_0 {A} (F : R -> A -> R) x l :
  (forall b, In b l -> is_derive (fun t => F t b) x 0) -> is_derive (fun t => lsum (F t) l) x 0.
Proof.
  intros H. assert (E := lsum_0 (fun _ : A => 0) l (fun _ _ => eq_refl)). rewrite <- E. apply is_derive_lsum. exact H.
Qed.
Lemma is_derive_lsum_single {A} (F : R -> A -> R) x l a (d : R) : NoDup l -> In a l ->
  (forall b, In b l -> b <> a -> is_derive (fun t => F t b) x 0) ->
  is_derive (fun t => F t a) x d -> is_derive (fun t => lsum (F t) l) x d.
Proof.
  intros Hn Hi H0 Hd. induction l as [|c r IH]; [destruct Hi|]. inversion Hn; subst. cbn [lsum].
  destruct Hi as [->|Hi].
  - replace d with (d + 0) by lra. apply (is_derive_plus (V := R_NormedModule)); auto.
    apply is_derive_lsum_0. intros b Hb. apply H0; simpl; auto. intros ->; contradiction.
  - replace d with (0 + d) by lra. apply (is_derive_plus (V := R_NormedModule)).
    + apply H0; simpl; auto. intros ->; contradiction.
    + apply IH; auto. intros; apply H0; simpl; auto.
Qed.
Lemma NoDup_In_map_inj {A C} (f : A -> C) (Hf : forall x y, f x = f y -> x = y) a l : In (f a) (map f l) -> In a l.
Proof. intros H. apply in_map_iff in H. destruct H as [y [E Hy]]. apply Hf in E. now subst. Qed.

(* real powers *)
Lemma rpow_pos x y : 0 < x -> rpow x y = Rpower x y.
Proof. intros H. unfold rpow. destruct (Req_EM_T x 0); [lra|auto]. Qed.
Lemma rpow_gt0 x y : 0 < x -> 0 < rpow x y.
Proof. intros H. rewrite rpow_pos by auto. apply exp_pos. Qed.
Lemma rpow_0 y : y <> 0 -> rpow 0 y = 0.
Proof. intros H. unfold rpow. destruct (Req_EM_T 0 0); [|lra]. destruct (Req_EM_T y 0); lra. Qed.
Lemma rpow_plus x y z : 0 < x -> rpow x (y + z) = rpow x y * rpow x z.
Proof. intros H. rewrite !rpow_pos by auto. apply Rpower_plus. Qed.
Lemma rpow_opp x y : 0 < x -> rpow x (- y) = / rpow x y.
Proof. intros H. rewrite !rpow_pos by auto. apply Rpower_Ropp. Qed.
Lemma rpow_1 x : 0 < x -> rpow x 1 = x.
Proof. intros H. rewrite rpow_pos by auto. apply Rpower_1; auto. Qed.
Lemma is_derive_Rpower x y : 0 < x -> is_derive (fun t => Rpower t y) x (y * Rpower x (y - 1)).
Proof. intros H. apply is_derive_Reals. apply derivable_pt_lim_power. auto. Qed.
Lemma near_pos x : 0 < x -> exists d : posreal, forall t, Rabs (t - x) < d -> 0 < t.
Proof. intros H. exists (mkposreal x H). simpl. intros t Ht. apply Rabs_def2 in Ht. lra. Qed.
Lemma is_derive_rpow x y : 0 < x -> is_derive (fun t => rpow t y) x (y * rpow x (y - 1)).
Proof.
  intros H. rewrite (rpow_pos x) by auto.
  apply (is_derive_ext_loc (fun t => Rpower t y)); [|apply is_derive_Rpower; auto].
  destruct (near_pos x H) as [d Hd]. exists d. intros t Ht. symmetry. apply rpow_pos. apply Hd. exact Ht.
Qed.
Lemma near_lt x a : x < a -> exists d : posreal, forall t, Rabs (t - x) < d -> t < a.
Proof. intros H. assert (H' : 0 < a - x) by lra. exists (mkposreal _ H'). simpl. intros t Ht. apply Rabs_def2 in Ht. lra. Qed.
Lemma near_gt x a : a < x -> exists d : posreal, forall t, Rabs (t - x) < d -> a < t.
Proof. intros H. assert (H' : 0 < x - a) by lra. exists (mkposreal _ H'). simpl. intros t Ht. apply Rabs_def2 in Ht. lra. Qed.
Lemma near_and x (P Q : R -> Prop) : (exists d : posreal, forall t, Rabs (t - x) < d -> P t) ->
  (exists d : posreal, forall t, Rabs (t - x) < d -> Q t) -> exists d : posreal, forall t, Rabs (t - x) < d -> P t /\ Q t.
Proof.
  intros [d1 H1] [d2 H2]. assert (Hd : 0 < Rmin d1 d2) by (apply Rmin_pos; [apply d1|apply d2]).
  exists (mkposreal _ Hd). simpl. intros t Ht. split; [apply H1|apply H2].
  - eapply Rlt_le_trans; [exact Ht|apply Rmin_l]. - eapply Rlt_le_trans; [exact Ht|apply Rmin_r].
Qed.

Lemma jinit_zero ds o i : (forall d, In d ds -> snd d = 0) -> jinit ds o i = 0.
Proof.
  intros H. unfold jinit. assert (G : forall l a, a = 0 -> (forall d : decl, In d l -> snd d = 0) ->
    fold_left (fun acc (d : decl) => let '(os, is, v) := d in
    if in_dec var_eq_dec o os then if in_dec var_eq_dec i is then v else acc else acc) l a = 0).
  { induction l as [|[[os is] v] r IH]; intros a Ha Hl; simpl; auto. apply IH; [|intros; apply Hl; simpl; auto].
    destruct (in_dec var_eq_dec o os); auto. destruct (in_dec var_eq_dec i is); auto.
    apply (Hl (os, is, v)); simpl; auto. }
  apply G; auto.
Qed.
