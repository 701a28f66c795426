(* Properties C44 (deprecated dictionaries) and C45 (copying components). *)
From Verif Require Import Lib_R Model_Misc.
From Coq Require Import Lia.
Open Scope string_scope. Open Scope list_scope.

(* ---------- C44 ---------- *)
(* the same program with ordinary dictionaries in place of the deprecated ones *)
Definition plain_on (ds : list (dict R)) (i : nat) (f : dict R -> list (dict R) * result) : list (dict R) * result :=
  match nth_error ds i with Some d => f d | None => (ds, RNoObject) end.
Definition plain_step (ds : list (dict R)) (o : op) : list (dict R) * result :=
  match o with
  | New _ _ d => (ds ++ [d], RUnit)
  | GetItem i k => plain_on ds i (fun d => (ds, match dget d k with Some v => RVal v | None => RKeyError end))
  | Get i k => plain_on ds i (fun d => (ds, match dget d k with Some v => RVal v | None => RNone end))
  | Has i k => plain_on ds i (fun d => (ds, RBool (dmem d k)))
  | Keys i => plain_on ds i (fun d => (ds, RKeys (dkeys d)))
  | SetItem i k v => plain_on ds i (fun d => (set_nth ds i (dset d k v), RUnit))
  | Filter _ | Warn _ => (ds, RUnit)
  end.
Fixpoint plain_exec (ds : list (dict R)) (l : list op) : list (dict R) * list result :=
  match l with [] => (ds, []) | o :: r => let '(w1, x) := plain_step ds o in let '(w2, xs) := plain_exec w1 r in (w2, x :: xs) end.
Definition contents (w : world) : list (dict R) := map entries (objs w).

Lemma map_set_nth {A B} (f : A -> B) l : forall i a, map f (set_nth l i a) = set_nth (map f l) i (f a).
Proof. induction l as [|b r IH]; intros [|i] a; cbn; congruence. Qed.
Lemma set_nth_same {A} l : forall i (a : A), nth_error l i = Some a -> set_nth l i a = l.
Proof. induction l as [|b r IH]; intros [|i] a; cbn; intros H; try congruence. f_equal. auto. Qed.
Lemma nth_set_same {A} l : forall i (a b : A), nth_error l i = Some b -> nth_error (set_nth l i a) i = Some a.
Proof. induction l as [|x r IH]; intros [|i] a b; cbn; intros H; try discriminate; eauto. Qed.
Lemma nth_set_other {A} l : forall i j (a : A), i <> j -> nth_error (set_nth l i a) j = nth_error l j.
Proof. induction l as [|x r IH]; intros [|i] [|j] a H; cbn; auto; try congruence. Qed.
Lemma step_plain w o : let '(w', x) := step w o in plain_step (contents w) o = (contents w', x).
Proof.
  assert (N : forall i, nth_error (contents w) i = option_map entries (nth_error (objs w) i)) by (intros; apply nth_error_map).
  destruct o as [a b d|i k|i k|i k|i|i k v|a|m]; cbn; unfold on_obj, plain_on; rewrite ?N;
    try (destruct (nth_error (objs w) i) as [x|] eqn:E; cbn; [|reflexivity]); try reflexivity.
  - unfold contents. cbn. rewrite map_app. reflexivity.
  - unfold item. destruct (has_warned x); [reflexivity|]. unfold contents. cbn. f_equal.
    rewrite map_set_nth. cbn. symmetry. apply set_nth_same. rewrite nth_error_map, E. reflexivity.
  - unfold contents. cbn. rewrite map_set_nth. reflexivity.
Qed.
(* whatever a program does, it reads exactly the values it would read from ordinary dictionaries, errors included *)
Theorem C44_values : forall ops w, let '(w', xs) := exec w ops in plain_exec (contents w) ops = (contents w', xs).
Proof.
  induction ops as [|o r IH]; intros w; cbn; [reflexivity|].
  pose proof (step_plain w o) as H. destruct (step w o) as [w1 x]. specialize (IH w1). destruct (exec w1 r) as [w2 xs].
  cbn in H. rewrite H, IH. reflexivity.
Qed.
Print Assumptions C44_values.

(* the warnings about object i *)
Definition about (i : nat) (w : world) : list (string * fate) :=
  flat_map (fun x => match x with (Dict j, m, f) => if Nat.eqb i j then [(m, f)] else [] | _ => [] end) (log w).
Definition fresh : world := mkWorld [] [] [].
(* some operation of the program reads object i with x[k] while it exists *)
Definition reads (i : nat) (ops : list op) : Prop :=
  exists pre k post, ops = pre ++ GetItem i k :: post /\ nth_error (objs (fst (exec fresh pre))) i <> None.

Lemma exec_app w a b : exec w (a ++ b) = let '(w1, xs) := exec w a in let '(w2, ys) := exec w1 b in (w2, xs ++ ys).
Proof.
  revert w. induction a as [|o r IH]; intros w; cbn; [destruct (exec w b); reflexivity|].
  destruct (step w o) as [w1 x]. rewrite IH. destruct (exec w1 r) as [w2 xs]. destruct (exec w2 b). reflexivity.
Qed.
Lemma about_app l1 l2 i os fs : about i (mkWorld os fs (l1 ++ l2)) = about i (mkWorld os fs l1) ++ about i (mkWorld os fs l2).
Proof. unfold about. cbn. apply flat_map_app. Qed.
(* one warning per object that has warned, none otherwise; names never change *)
Definition warned_ok (w : world) : Prop := forall i, match nth_error (objs w) i with
  | Some x => about i w = if has_warned x then [(message x, Shown)] else []
  | None => about i w = [] end.
Lemma step_warned w o : warned_ok w -> warned_ok (fst (step w o)) /\
  forall i, match nth_error (objs (fst (step w o))) i with
    | Some x' => has_warned x' = true <-> (exists x, nth_error (objs w) i = Some x /\ (has_warned x = true \/ exists k, o = GetItem i k))
    | None => nth_error (objs w) i = None end.
Proof.
  intros H.
  assert (Id : forall o', (forall i k, o' <> GetItem i k) -> forall i, match nth_error (objs w) i with
    | Some x' => has_warned x' = true <-> (exists x, nth_error (objs w) i = Some x /\ (has_warned x = true \/ exists k, o' = GetItem i k))
    | None => nth_error (objs w) i = None end).
  { intros o' No i. destruct (nth_error (objs w) i) as [x|]; [|reflexivity]. split.
    - intros Hx. exists x. auto.
    - intros [y [Hy [Hw|[k Hk]]]]; [congruence|destruct (No _ _ Hk)]. }
  destruct o as [a b d|i k|i k|i k|i|i k v|a|m]; cbn [step].
  - split.
    + intros i. cbn. specialize (H i). destruct (Nat.lt_trichotomy i (List.length (objs w))) as [L|[L|L]].
      * rewrite nth_error_app1 by exact L. exact H.
      * rewrite nth_error_app2 by lia. replace (i - List.length (objs w))%nat with 0%nat by lia. cbn. rewrite (proj2 (nth_error_None (objs w) i)) in H by lia. exact H.
      * rewrite nth_error_app2 by lia. destruct (i - List.length (objs w))%nat as [|n] eqn:En; [lia|]. cbn. rewrite (proj2 (nth_error_None [] n)) by (cbn; lia).
        rewrite (proj2 (nth_error_None (objs w) i)) in H by lia. exact H.
    + intros i. cbn. destruct (Nat.lt_trichotomy i (List.length (objs w))) as [L|[L|L]].
      * rewrite nth_error_app1 by exact L. apply (Id (New a b d)). discriminate.
      * rewrite nth_error_app2 by lia. replace (i - List.length (objs w))%nat with 0%nat by lia. cbn. split; [discriminate|].
        intros [x [Hx _]]. rewrite (proj2 (nth_error_None (objs w) _)) in Hx by lia. discriminate.
      * rewrite nth_error_app2 by lia. destruct (i - List.length (objs w))%nat as [|n] eqn:En; [lia|]. cbn. rewrite (proj2 (nth_error_None [] n)) by (cbn; lia).
        apply nth_error_None. lia.
  - unfold on_obj. destruct (nth_error (objs w) i) as [x|] eqn:E; cbn [fst].
    + unfold getitem. cbn [fst]. destruct (has_warned x) eqn:Ew.
      * split; [exact H|]. intros j. destruct (Nat.eq_dec j i) as [->|N].
        -- rewrite E. split; [|auto]. intros _. exists x. auto.
        -- destruct (nth_error (objs w) j) as [y|] eqn:Ey; [|reflexivity]. split; [intros Hy; exists y; auto|].
           intros [z [Hz [Hw|[k' Hk]]]]; [congruence|]. inversion Hk. congruence.
      * split.
        -- intros j. cbn. pose proof (H j) as Hj. unfold about. cbn. rewrite flat_map_app. cbn.
           destruct (Nat.eq_dec j i) as [->|N].
           ++ rewrite (nth_set_same _ _ _ _ E), Nat.eqb_refl. cbn. rewrite E, Ew in Hj. unfold about in Hj. rewrite Hj. reflexivity.
           ++ rewrite nth_set_other by congruence. apply Nat.eqb_neq in N. rewrite N, app_nil_r. exact Hj.
        -- intros j. cbn. destruct (Nat.eq_dec j i) as [->|N].
           ++ rewrite (nth_set_same _ _ _ _ E). cbn. split; [|auto]. intros _. exists x. eauto.
           ++ rewrite nth_set_other by congruence. destruct (nth_error (objs w) j) as [y|] eqn:Ey; [|reflexivity]. split; [intros Hy; exists y; auto|].
              intros [z [Hz [Hw|[k' Hk]]]]; [congruence|]. inversion Hk. congruence.
    + split; [exact H|]. intros j. destruct (nth_error (objs w) j) as [y|] eqn:Ey; [|reflexivity]. split; [intros Hy; exists y; auto|].
      intros [z [Hz [Hw|[k' Hk]]]]; [congruence|]. inversion Hk. congruence.
  - unfold on_obj. destruct (nth_error (objs w) i); cbn [fst]; (split; [exact H|apply Id; discriminate]).
  - unfold on_obj. destruct (nth_error (objs w) i); cbn [fst]; (split; [exact H|apply Id; discriminate]).
  - unfold on_obj. destruct (nth_error (objs w) i); cbn [fst]; (split; [exact H|apply Id; discriminate]).
  - unfold on_obj. destruct (nth_error (objs w) i) as [x|] eqn:E; cbn [fst]; [|split; [exact H|apply Id; discriminate]]. split.
    + intros j. pose proof (H j) as Hj. cbn. destruct (Nat.eq_dec j i) as [->|N].
      * rewrite (nth_set_same _ _ _ _ E). rewrite E in Hj. exact Hj.
      * rewrite nth_set_other by congruence. exact Hj.
    + intros j. cbn. pose proof (Id (SetItem i k v) ltac:(discriminate) j) as Hj. destruct (Nat.eq_dec j i) as [->|N].
      * rewrite (nth_set_same _ _ _ _ E), E. rewrite E in Hj. exact Hj.
      * rewrite nth_set_other by congruence. exact Hj.
  - split; [exact H|]. apply Id. discriminate.
  - split; [|apply Id; discriminate]. intros j. pose proof (H j) as Hj. cbn. unfold about. cbn. rewrite flat_map_app. cbn. rewrite app_nil_r. exact Hj.
Qed.
Lemma len_set {A} (l : list A) : forall j a, List.length (set_nth l j a) = List.length l.
Proof. induction l; intros [|j] a'; cbn; auto. Qed.
Lemma step_keeps w o i : nth_error (objs w) i <> None -> nth_error (objs (fst (step w o))) i <> None.
Proof.
  rewrite !nth_error_Some. intros H. destruct o as [a b d|j k'|j k'|j k'|j|j k' v|a|m]; cbn; unfold on_obj;
    try (destruct (nth_error (objs w) j) as [y|]); cbn; rewrite ?app_length; cbn; try lia; try (rewrite len_set; lia).
  unfold getitem. destruct (has_warned y); cbn; rewrite ?len_set; lia.
Qed.
Lemma exec_keeps l : forall w i, nth_error (objs w) i <> None -> nth_error (objs (fst (exec w l))) i <> None.
Proof.
  induction l as [|o l IH]; intros w i H; [exact H|]. cbn. pose proof (step_keeps w o i H) as K. destruct (step w o) as [w1 x].
  specialize (IH w1 i K). destruct (exec w1 l). exact IH.
Qed.
Lemma fresh_ok : warned_ok fresh. Proof. intros [|i]; reflexivity. Qed.
Lemma exec_warned ops : warned_ok (fst (exec fresh ops)) /\
  forall i x, nth_error (objs (fst (exec fresh ops))) i = Some x -> (has_warned x = true <-> reads i ops).
Proof.
  induction ops as [|o r IH] using rev_ind.
  - split; [apply fresh_ok|]. intros [|i] x H; discriminate.
  - rewrite exec_app. destruct (exec fresh r) as [w1 xs] eqn:E1. cbn [exec]. destruct IH as [IH1 IH2]. cbn [fst] in IH1, IH2.
    destruct (step_warned w1 o IH1) as [S1 S2]. destruct (step w1 o) as [w2 y]. cbn [fst] in *.
    split; [exact S1|]. intros i x Hx. specialize (S2 i). rewrite Hx in S2. rewrite S2. split.
    + intros [x0 [Hx0 [Hw|[k ->]]]].
      * apply (IH2 i x0 Hx0) in Hw. destruct Hw as [pre [k [post [-> Hp]]]]. exists pre, k, (post ++ [o]). rewrite <- app_assoc. split; [reflexivity|exact Hp].
      * exists r, k, []. split; [reflexivity|]. rewrite E1. cbn. congruence.
    + intros [pre [k [post [He Hp]]]]. destruct (nth_error (objs w1) i) as [x0|] eqn:E0.
      2: { exfalso. destruct post as [|p ps] using rev_ind; [apply app_inj_tail in He as [-> _]; rewrite E1 in Hp; exact (Hp E0)|].
           replace (pre ++ GetItem i k :: ps ++ [p]) with ((pre ++ GetItem i k :: ps) ++ [p]) in He by (rewrite <- app_assoc; reflexivity).
           apply app_inj_tail in He as [Hr _]. rewrite Hr in E1. rewrite exec_app in E1.
           destruct (exec fresh pre) as [w0 ys]. cbn [fst] in Hp. pose proof (exec_keeps (GetItem i k :: ps) w0 i Hp) as K.
           destruct (exec w0 (GetItem i k :: ps)) as [w' zs]. inversion E1; subst. exact (K E0). }
      exists x0. split; [reflexivity|].
      destruct post as [|p ps] using rev_ind.
      * apply app_inj_tail in He as [_ ->]. right. eauto.
      * left. apply (IH2 i x0 E0). replace (pre ++ GetItem i k :: ps ++ [p]) with ((pre ++ GetItem i k :: ps) ++ [p]) in He by (rewrite <- app_assoc; reflexivity).
        apply app_inj_tail in He as [-> _]. exists pre, k, ps. auto.
Qed.
(* every deprecated dictionary warns exactly once, with its own message, and is always shown, if the program ever reads it with x[k]
   (even when the key is missing, whatever filters the user has set); otherwise it never warns *)
Theorem C44_warns_once : forall ops i x, nth_error (objs (fst (exec fresh ops))) i = Some x ->
  (reads i ops -> about i (fst (exec fresh ops)) = [(message x, Shown)]) /\ (~ reads i ops -> about i (fst (exec fresh ops)) = []).
Proof.
  intros ops i x Hx. destruct (exec_warned ops) as [A B]. specialize (A i). rewrite Hx in A. rewrite A. specialize (B i x Hx).
  destruct (has_warned x); split; intros H; try reflexivity.
  - destruct (H (proj1 B eq_refl)).
  - apply B in H. discriminate.
Qed.
Print Assumptions C44_warns_once.
(* refuted: reading through get, in or iteration does not count as a use *)
Theorem C44_get_refuted : exists ops, In (Get 0 "N") ops /\ In (RVal 1%R) (snd (exec fresh ops)) /\ log (fst (exec fresh ops)) = [].
Proof. exists [New "AIR_MIX" "CEA_AIR_COMPOSITION" [("N", 1%R)]; Get 0 "N"]. cbn. auto. Qed.
Print Assumptions C44_get_refuted.
(* refuted: the warning leaves the process in another state: from then on every DeprecationWarning of other code is dropped, until somebody
   sets a filter again *)
Definition sets_filter (o : op) : bool := match o with Filter _ => true | _ => false end.
Theorem C44_silences_others_refuted : forall w i k x ops, nth_error (objs w) i = Some x -> has_warned x = false ->
  forallb (fun o => negb (sets_filter o)) ops = true ->
  forall msg, exists w', fst (exec w (GetItem i k :: ops ++ [Warn msg])) = w' /\ exists l, log w' = l ++ [(Other, msg, Dropped)].
Proof.
  intros w i k x ops Hx Hw Hops msg. eexists. split; [reflexivity|]. cbn [exec step]. unfold on_obj. rewrite Hx. unfold getitem. rewrite Hw.
  match goal with |- context [let '(w2, xs) := exec ?w0 _ in _] => remember w0 as w1; assert (F : exists fs, filters w1 = Ignore :: fs) by (subst w1; cbn; eauto) end.
  clear Heqw1. assert (G : forall l w1, (exists fs, filters w1 = Ignore :: fs) -> forallb (fun o => negb (sets_filter o)) l = true ->
    exists fs, filters (fst (exec w1 l)) = Ignore :: fs).
  { induction l as [|o l IH]; intros w2 F2 H; [exact F2|]. cbn in H. apply andb_true_iff in H as [Ho H]. cbn [exec].
    destruct (step w2 o) as [w3 y] eqn:Es. specialize (IH w3). destruct (exec w3 l) as [w4 ys]. apply IH; [|exact H].
    destruct o as [a b d|j k'|j k'|j k'|j|j k' v|a|m]; try discriminate Ho; cbn in Es; unfold on_obj in Es;
      try (destruct (nth_error (objs w2) j) as [y0|]; [unfold getitem in Es|]); inversion Es; subst; try exact F2.
    destruct (has_warned y0); [exact F2|cbn; eauto]. }
  specialize (G ops w1 F Hops). destruct G as [fs G]. rewrite exec_app. destruct (exec w1 ops) as [w2 xs]. cbn in G. cbn. rewrite G. cbn. eauto.
Qed.
Print Assumptions C44_silences_others_refuted.
Example C44_example : exists ops, exec fresh ops = (mkWorld [mkObj "AIR_MIX" "CEA_AIR_COMPOSITION" true [("N", 1%R)]] [Ignore; Always; Raise]
    [(Dict 0, "Deprecation warning: `AIR_MIX` will be replaced by `CEA_AIR_COMPOSITION` in pyCycle 4.0", Shown); (Other, "other", Dropped)],
    [RUnit; RUnit; RKeyError; RVal 1%R; RUnit]) /\ reads 0 ops.
Proof.
  exists [Filter Raise; New "AIR_MIX" "CEA_AIR_COMPOSITION" [("N", 1%R)]; GetItem 0 "O"; GetItem 0 "N"; Warn "other"]. split; [reflexivity|].
  exists [Filter Raise; New "AIR_MIX" "CEA_AIR_COMPOSITION" [("N", 1%R)]], "O", [GetItem 0 "N"; Warn "other"]. split; [reflexivity|discriminate].
Qed.

(* ---------- C45 ---------- *)
Open Scope R_scope.
Lemma combine_in_slots (f : string -> string) l v w : In (v, w) (combine (slots (map (fun x => (f (fst x), snd x)) l)) (slots l)) ->
  exists x n k, In (x, n) l /\ (k < n)%nat /\ v = I (f x) k /\ w = I x k.
Proof.
  assert (C : forall (A B : Type) (a1 a2 : list A) (b1 b2 : list B), List.length a1 = List.length b1 -> combine (a1 ++ a2) (b1 ++ b2) = combine a1 b1 ++ combine a2 b2).
  { induction a1 as [|x a1 IH]; intros a2 [|y b1] b2 H; cbn in *; try discriminate; [reflexivity|]. f_equal. apply IH. congruence. }
  assert (D : forall a b ks, In (v, w) (combine (map (I a) ks) (map (I b) ks)) -> exists k, In k ks /\ v = I a k /\ w = I b k).
  { intros a b ks. induction ks as [|k ks IH]; cbn; [tauto|]. intros [H|H]; [inversion H; subst; eauto|]. destruct (IH H) as [k' [? [? ?]]]. eauto. }
  induction l as [|[x n] r IH]; cbn; [tauto|]. rewrite C by (rewrite !map_length; reflexivity). rewrite in_app_iff. intros [H|H].
  - destruct (D _ _ _ H) as [k [Hk [-> ->]]]. apply in_seq in Hk. exists x, n, k. split; [auto|]. split; [lia|auto].
  - destruct (IH H) as [x' [n' [k [? ?]]]]. exists x', n', k. tauto.
Qed.
Lemma fold_upd_miss (f : var -> R) os : forall acc o, ~ In o (map fst os) -> fold_left (fun a (oi : var * var) => upd a (fst oi) (f (snd oi))) os acc o = acc o.
Proof.
  induction os as [|[a b] r IH]; intros acc o H; cbn in *; [reflexivity|]. rewrite IH by tauto. unfold upd. destruct (var_eq_dec a o); [subst; tauto|reflexivity].
Qed.
Lemma fold_upd_hit (f : var -> R) os : NoDup (map fst os) -> forall acc o i, In (o, i) os -> fold_left (fun a (oi : var * var) => upd a (fst oi) (f (snd oi))) os acc o = f i.
Proof.
  induction os as [|[a b] r IH]; intros N acc o i H; cbn in *; [tauto|]. inversion N; subst. destruct H as [H|H].
  - inversion H; subst. rewrite fold_upd_miss by assumption. unfold upd. destruct (var_eq_dec o o); congruence.
  - apply IH; auto.
Qed.
Lemma slots_in l v : In v (slots l) <-> exists x n k, In (x, n) l /\ (k < n)%nat /\ v = I x k.
Proof.
  unfold slots. rewrite in_flat_map. split.
  - intros [[x n] [H1 H2]]. apply in_map_iff in H2 as [k [<- Hk]]. apply in_seq in Hk. exists x, n, k. split; [exact H1|]. split; [cbn in Hk; lia|reflexivity].
  - intros [x [n [k [H1 [H2 ->]]]]]. exists (x, n). split; [exact H1|]. apply in_map. apply in_seq. cbn. lia.
Qed.
Lemma slots_nodup l : NoDup (map fst l) -> NoDup (slots l).
Proof.
  induction l as [|[x n] r IH]; cbn; intros N; [constructor|]. inversion N; subst.
  assert (A : NoDup (map (I x) (seq 0 n))). { apply FinFun.Injective_map_NoDup; [intros a b Hab; congruence|apply seq_NoDup]. }
  assert (G : forall a b : list var, NoDup a -> NoDup b -> (forall v, In v a -> ~ In v b) -> NoDup (a ++ b)).
  { induction a as [|v a IHa]; intros b Na Nb D; cbn; [exact Nb|]. inversion Na; subst. constructor.
    - rewrite in_app_iff. intros [X|X]; [auto|]. exact (D v (or_introl eq_refl) X).
    - apply IHa; auto. intros v' Hv'. apply D. right. exact Hv'. }
  apply G; [exact A|apply IH; assumption|]. intros v Hv Hr. apply in_map_iff in Hv as [k [<- _]]. apply slots_in in Hr as [x' [n' [k' [Hx [_ He]]]]].
  inversion He; subst. apply H1. apply in_map_iff. exists (x', n'). auto.
Qed.
Lemma slots_len (f : string -> string) l : List.length (slots (map (fun x => (f (fst x), snd x)) l)) = List.length (slots l).
Proof. unfold slots. induction l as [|[x n] r IH]; cbn; [reflexivity|]. rewrite !app_length, !map_length. congruence. Qed.
Lemma combine_fst {A B} (a : list A) : forall b : list B, List.length a = List.length b -> map fst (combine a b) = a.
Proof. induction a as [|x a IH]; intros [|y b] H; cbn in *; try discriminate; [reflexivity|]. f_equal. apply IH. congruence. Qed.
Lemma fl_nodup fl l : NoDup (map fst l) -> NoDup (map fst (map (fun x : string * nat => ((fl ++ ":" ++ fst x)%string, snd x)) l)).
Proof.
  intros N. replace (map fst _) with (map (fun s => (fl ++ ":" ++ s)%string) (map fst l)) by (rewrite !map_map; reflexivity).
  apply FinFun.Injective_map_NoDup; [|exact N]. intros a b H. induction fl as [|c fl IH]; cbn in H; [congruence|]. inversion H. auto.
Qed.
(* every output is the input of the same name, entry by entry *)
Lemma unit_value fl l : NoDup (map fst l) -> forall e old x n k, In (x, n) l -> (k < n)%nat ->
  compute (unit_comp fl l) e old (I (fl ++ ":" ++ x)%string k) = e (I x k).
Proof.
  intros N e old x n k Hx Hk. cbn. unfold copy_data. set (l' := map _ l).
  assert (Lc : List.length (slots l') = List.length (slots l)) by apply (slots_len (fun s => (fl ++ ":" ++ s)%string)).
  apply (fold_upd_hit e).
  - rewrite combine_fst by exact Lc. apply slots_nodup. apply fl_nodup. exact N.
  - assert (Hin : In (I (fl ++ ":" ++ x)%string k) (slots l')).
    { apply slots_in. exists (fl ++ ":" ++ x)%string, n, k. split; [|auto]. apply in_map_iff. exists (x, n). auto. }
    rewrite <- (combine_fst (slots l') (slots l) Lc) in Hin. apply in_map_iff in Hin as [[o i] [He Hin]]. cbn in He. subst o.
    pose proof Hin as Hin2. apply (combine_in_slots (fun s => (fl ++ ":" ++ s)%string) l) in Hin2. destruct Hin2 as [x' [n' [k' [_ [_ [He ->]]]]]].
    inversion He as [[Hs Hkk]]. clear He. assert (x' = x) as ->.
    { clear -Hs. induction fl as [|c fl IH]; cbn in Hs; [congruence|]. inversion Hs. auto. }
    rewrite <- Hkk in Hin |- *. exact Hin.
Qed.
Lemma diag_declares (ds : list ((string * nat) * (string * nat))) o i : declares (flat_map (fun p => diag (fst (fst p)) (fst (snd p)) (snd (snd p))) ds) o i <->
  exists a n b m k, In ((a, n), (b, m)) ds /\ (k < m)%nat /\ o = I a k /\ i = I b k.
Proof.
  unfold declares. split.
  - intros [os [is [v [H [Ho Hi]]]]]. apply in_flat_map in H as [[[a n] [b m]] [H1 H2]]. apply in_map_iff in H2 as [k [He Hk]]. inversion He; subst.
    destruct Ho as [<-|[]]. destruct Hi as [<-|[]]. apply in_seq in Hk. exists a, n, b, m, k. split; [exact H1|]. split; [cbn in Hk; lia|auto].
  - intros [a [n [b [m [k [H [Hk [-> ->]]]]]]]]. exists [I a k], [I b k], 1. split; [|cbn; auto]. apply in_flat_map. exists ((a, n), (b, m)). split; [exact H|].
    apply in_map_iff. exists k. split; [reflexivity|]. apply in_seq. cbn. lia.
Qed.
Lemma jinit_ones ds : (forall os is v, In (os, is, v) ds -> v = 1) -> forall o i, (declares ds o i -> jinit ds o i = 1) /\ (~ declares ds o i -> jinit ds o i = 0).
Proof.
  intros H o i. unfold jinit.
  assert (G : forall l acc, (forall d, In d l -> In d ds) ->
    let r := fold_left (fun a (d : decl) => let '(os, is, v) := d in if in_dec var_eq_dec o os then if in_dec var_eq_dec i is then v else a else a) l acc in
    (declares l o i -> r = 1) /\ (~ declares l o i -> r = acc)).
  { induction l as [|[[os is] v] l IH] using rev_ind; intros acc Hl; cbn zeta.
    - split; [intros [? [? [? [[] _]]]]|reflexivity].
    - rewrite fold_left_app. cbn.
      assert (v = 1) as -> by (apply (H os is); apply Hl; apply in_or_app; right; left; reflexivity).
      specialize (IH acc ltac:(intros d Hd; apply Hl; apply in_or_app; left; exact Hd)). cbn zeta in IH. destruct IH as [IH1 IH2].
      assert (Dl : declares (l ++ [(os, is, 1)]) o i <-> declares l o i \/ (In o os /\ In i is)).
      { unfold declares. split.
        - intros [os' [is' [v' [X Y]]]]. apply in_app_or in X as [X|[X|[]]]; [left; exists os', is', v'; auto|inversion X; subst; auto].
        - intros [[os' [is' [v' [X Y]]]]|X]; [exists os', is', v'; split; [apply in_or_app; auto|exact Y]|exists os, is, 1; split; [apply in_or_app; right; left; reflexivity|exact X]]. }
      rewrite Dl. destruct (in_dec var_eq_dec o os) as [Ho|Ho]; [destruct (in_dec var_eq_dec i is) as [Hi|Hi]|]; split; try tauto.
  }
  apply (G ds 0). auto.
Qed.
Lemma fold_id {A B} (l : list B) : forall a : A, fold_left (fun x _ => x) l a = a.
Proof. induction l; cbn; auto. Qed.
(* UnitCompBase: for any flow name, any number of variables of any sizes with distinct names: every output entry is the input entry of the
   same variable, and the derivatives are exact (1 on the matching entry, 0 elsewhere) *)
Theorem C45_unit_comp : forall fl l, NoDup (map fst l) -> comp_ok (unit_comp fl l) (fun _ => True) /\
  (forall x n, In (x, n) l -> forall k, (k < n)%nat -> In (I (fl ++ ":" ++ x)%string k) (outs (unit_comp fl l)) /\
    forall e old, compute (unit_comp fl l) e old (I (fl ++ ":" ++ x)%string k) = e (I x k)) /\
  (forall o, In o (outs (unit_comp fl l)) -> exists x n k, In (x, n) l /\ (k < n)%nat /\ o = I (fl ++ ":" ++ x)%string k).
Proof.
  intros fl l N.
  assert (O : forall o, In o (outs (unit_comp fl l)) -> exists x n k, In (x, n) l /\ (k < n)%nat /\ o = I (fl ++ ":" ++ x)%string k).
  { intros o Ho. cbn in Ho. apply slots_in in Ho as [x' [n [k [Hx [Hk ->]]]]]. apply in_map_iff in Hx as [[x n'] [He Hx]]. inversion He; subst. eauto 6. }
  split; [|split; [|exact O]].
  - split; [|split].
    + intros hist e old o i _ Ho Hi. destruct (O o Ho) as [x [n [k [Hx [Hk ->]]]]].
      unfold jac_after. cbn [partials unit_comp]. rewrite fold_id.
      destruct (jinit_ones (decls (unit_comp fl l)) ltac:(intros os is v H; cbn in H; apply in_flat_map in H as [p [_ H]]; apply in_map_iff in H as [k' [He _]]; congruence)
        (I (fl ++ ":" ++ x)%string k) i) as [J1 J0].
      destruct (var_eq_dec i (I x k)) as [->|Ne].
      * rewrite J1.
        -- apply (derivable_pt_lim_ext id); [|apply derivable_pt_lim_id].
           intros t. rewrite (unit_value fl l N _ _ x n k Hx Hk). unfold upd, id. destruct (var_eq_dec (I x k) (I x k)); congruence.
        -- cbn. apply diag_declares. exists (fl ++ ":" ++ x)%string, n, x, n, k. split; [|auto].
           clear -Hx. induction l as [|y r IH]; cbn in *; [tauto|]. destruct Hx as [->|Hx]; [left; reflexivity|right; auto].
      * rewrite J0.
        -- apply (derivable_pt_lim_ext (fun _ => e (I x k))); [|apply derivable_pt_lim_const].
           intros t. rewrite (unit_value fl l N _ _ x n k Hx Hk). unfold upd. destruct (var_eq_dec i (I x k)); congruence.
        -- cbn [decls unit_comp]. rewrite diag_declares. intros [a [n1 [b [m [k' [Hc [Hk' [He Hi']]]]]]]]. apply Ne. rewrite Hi'. clear Ne J1 J0 Hi Hi'.
           assert (Ha : a = (fl ++ ":" ++ b)%string).
           { clear -Hc. induction l as [|[y ny] r IH]; cbn [map combine In] in Hc; [tauto|]. destruct Hc as [Hc|Hc]; [inversion Hc; reflexivity|auto]. }
           subst a. injection He as Hs <-. f_equal. clear -Hs. induction fl as [|c fl IH]; cbn in Hs; [congruence|]. inversion Hs. auto.
    + intros e J o i _. reflexivity.
    + intros e e' old old' o Ho He. destruct (O o Ho) as [x [n [k [Hx [Hk ->]]]]]. rewrite !(unit_value fl l N _ _ x n k Hx Hk).
      apply He. cbn. apply slots_in. eauto 6.
  - intros x n Hx k Hk. split; [|intros; apply (unit_value fl l N e old x n k Hx Hk)].
    cbn. apply slots_in. exists (fl ++ ":" ++ x)%string, n, k. split; [|auto]. apply in_map_iff. exists (x, n). auto.
Qed.
Print Assumptions C45_unit_comp.
(* PassThrough: the output is the input, entry by entry, for any size, and the derivatives are exact *)
Theorem C45_pass_through : forall a b n, comp_ok (pass_through a b n) (fun _ => True) /\
  forall e old k, (k < n)%nat -> compute (pass_through a b n) e old (I b k) = e (I a k).
Proof.
  intros a b n.
  assert (Val : forall e old k, (k < n)%nat -> compute (pass_through a b n) e old (I b k) = e (I a k)).
  { intros e old k Hk. cbn.
    assert (Miss : forall ks acc, ~ In k ks -> fold_left (fun acc0 k0 => upd acc0 (I b k0) (e (I a k0))) ks acc (I b k) = acc (I b k)).
    { induction ks as [|j ks IH]; intros acc H; cbn in *; [reflexivity|]. rewrite IH by tauto. unfold upd. destruct (var_eq_dec (I b j) (I b k)) as [E|E]; [inversion E; tauto|reflexivity]. }
    assert (Hit : forall ks acc, In k ks -> fold_left (fun acc0 k0 => upd acc0 (I b k0) (e (I a k0))) ks acc (I b k) = e (I a k)).
    { induction ks as [|j ks IH]; intros acc H; cbn in *; [tauto|]. destruct (in_dec Nat.eq_dec k ks) as [Hk'|Hk']; [apply IH; exact Hk'|].
      rewrite Miss by exact Hk'. destruct H as [->|H]; [|tauto]. unfold upd. destruct (var_eq_dec (I b k) (I b k)); congruence. }
    apply Hit. apply in_seq. lia. }
  split; [|exact Val]. split; [|split].
  - intros hist e old o i _ Ho Hi. cbn [outs pass_through] in Ho. apply slots_in in Ho as [x' [n' [k [[Hx|[]] [Hk ->]]]]]. inversion Hx; subst.
    unfold jac_after. cbn [partials pass_through]. rewrite fold_id.
    destruct (jinit_ones (decls (pass_through a x' n')) ltac:(intros os is v H; cbn in H; apply in_map_iff in H as [k' [He _]]; congruence) (I x' k) i) as [J1 J0].
    assert (D : forall o i, declares (diag x' a n') o i <-> exists k, (k < n')%nat /\ o = I x' k /\ i = I a k).
    { intros o' i'. pose proof (diag_declares [((x', n'), (a, n'))] o' i') as P. cbn in P. rewrite app_nil_r in P. rewrite P. split.
      - intros [a1 [n1 [b1 [m1 [k1 [[He|[]] [H1 [H2 H3]]]]]]]]. inversion He; subst. eauto.
      - intros [k1 [H1 [H2 H3]]]. exists x', n', a, n', k1. auto. }
    destruct (var_eq_dec i (I a k)) as [->|Ne].
    + rewrite J1 by (apply D; eauto). apply (derivable_pt_lim_ext id); [|apply derivable_pt_lim_id].
      intros t. rewrite Val by exact Hk. unfold upd, id. destruct (var_eq_dec (I a k) (I a k)); congruence.
    + rewrite J0 by (cbn [decls pass_through]; rewrite D; intros [k1 [H1 [H2 H3]]]; inversion H2; subst; congruence).
      apply (derivable_pt_lim_ext (fun _ => e (I a k))); [|apply derivable_pt_lim_const].
      intros t. rewrite Val by exact Hk. unfold upd. destruct (var_eq_dec i (I a k)); congruence.
  - intros e J o i _. reflexivity.
  - intros e e' old old' o Ho He. cbn [outs pass_through] in Ho. apply slots_in in Ho as [x' [n' [k [[Hx|[]] [Hk ->]]]]]. inversion Hx; subst.
    rewrite !Val by exact Hk. apply He. cbn [ins pass_through]. apply slots_in. exists a, n', k. cbn. auto.
Qed.
Print Assumptions C45_pass_through.
Example C45_example : NoDup (map fst [("T", 1%nat); ("composition", 5%nat); ("h", 1%nat)]) /\
  forall e old, compute (unit_comp "Fl_O:tot" [("T", 1%nat); ("composition", 5%nat); ("h", 1%nat)]) e old (I "Fl_O:tot:composition" 3) = e (I "composition" 3).
Proof. split; [repeat constructor; cbn; intuition discriminate|reflexivity]. Qed.
