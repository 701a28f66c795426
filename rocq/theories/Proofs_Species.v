(* Proofs about sorted(), Properties and the coefficient cache. *)
From Coq Require Import Sorting.Sorted Permutation.
From Verif Require Import Lib_R Lib_Py Model_Species.
Open Scope string_scope. Open Scope list_scope. Open Scope R_scope.

(* ---- python's string order ---- *)
Lemma sleb_refl s : String.leb s s = true.
Proof. destruct (String.leb_total s s); auto. Qed.
Lemma acmp_lt_trans a b c : Ascii.compare a b = Lt -> Ascii.compare b c = Lt -> Ascii.compare a c = Lt.
Proof. unfold Ascii.compare. rewrite !BinNat.N.compare_lt_iff. lia. Qed.
Lemma acmp_refl a : Ascii.compare a a = Eq.
Proof. unfold Ascii.compare. apply BinNat.N.compare_refl. Qed.
Lemma sleb_trans a b c : String.leb a b = true -> String.leb b c = true -> String.leb a c = true.
Proof.
  unfold String.leb. revert b c. induction a as [|x a IH]; intros [|y b] [|z c]; simpl; auto; try discriminate.
  intros H1 H2. destruct (Ascii.compare x y) eqn:E1; try discriminate.
  - apply Ascii.compare_eq_iff in E1. subst y. destruct (Ascii.compare x z) eqn:E2; try discriminate; auto. exact (IH _ _ H1 H2).
  - destruct (Ascii.compare y z) eqn:E2; try discriminate.
    + apply Ascii.compare_eq_iff in E2. subst z. rewrite E1. auto.
    + rewrite (acmp_lt_trans _ _ _ E1 E2). auto.
Qed.
Definition sle (a b : string) : Prop := String.leb a b = true.
Lemma sinsert_perm x l : Permutation (x :: l) (sinsert x l).
Proof.
  induction l as [|y r IH]; simpl; auto. destruct (String.leb x y); auto.
  eapply perm_trans; [apply perm_swap|]. constructor. exact IH.
Qed.
Lemma sorted_perm l : Permutation l (sorted l).
Proof. induction l as [|x r IH]; simpl; auto. eapply perm_trans; [|apply sinsert_perm]. constructor; auto. Qed.
Lemma sinsert_sorted x l : StronglySorted sle l -> StronglySorted sle (sinsert x l).
Proof.
  induction l as [|y r IH]; simpl; intros H.
  - constructor; constructor.
  - inversion H as [|? ? Hs Hf]; subst. destruct (String.leb x y) eqn:E.
    + constructor; auto. constructor; auto. eapply Forall_impl; [|exact Hf]. intros a Ha. exact (sleb_trans _ _ _ E Ha).
    + constructor; auto. apply Forall_forall. intros a Ha.
      apply (Permutation_in a (Permutation_sym (sinsert_perm x r))) in Ha. destruct Ha as [<-|Ha].
      * destruct (String.leb_total x y); [congruence|auto].
      * rewrite Forall_forall in Hf. auto.
Qed.
Lemma sorted_sorted l : StronglySorted sle (sorted l).
Proof. induction l; simpl; [constructor|apply sinsert_sorted; auto]. Qed.
Lemma sorted_unique l1 l2 : StronglySorted sle l1 -> StronglySorted sle l2 -> Permutation l1 l2 -> l1 = l2.
Proof.
  revert l2. induction l1 as [|x r IH]; intros l2 H1 H2 P.
  - apply Permutation_nil in P. auto.
  - destruct l2 as [|y t]; [apply Permutation_sym, Permutation_nil in P; discriminate|].
    inversion H1 as [|? ? Hs1 Hf1]; inversion H2 as [|? ? Hs2 Hf2]; subst.
    assert (x = y).
    { apply String.leb_antisym.
      - assert (In y (x :: r)) by (apply (Permutation_in y (Permutation_sym P)); simpl; auto). destruct H as [<-|H]; [apply sleb_refl|].
        rewrite Forall_forall in Hf1. apply Hf1; auto.
      - assert (In x (y :: t)) by (apply (Permutation_in x P); simpl; auto). destruct H as [<-|H]; [apply sleb_refl|].
        rewrite Forall_forall in Hf2. apply Hf2; auto. }
    subst y. f_equal. apply IH; auto. eapply Permutation_cons_inv; eauto.
Qed.
Lemma sorted_ext l1 l2 : Permutation l1 l2 -> sorted l1 = sorted l2.
Proof.
  intros P. apply sorted_unique; try apply sorted_sorted.
  eapply perm_trans; [apply Permutation_sym, sorted_perm|]. eapply perm_trans; [exact P|apply sorted_perm].
Qed.
Lemma in_sorted x l : In x (sorted l) <-> In x l.
Proof. split; apply Permutation_in; [apply Permutation_sym|]; apply sorted_perm. Qed.
Lemma sorted_nodup l : NoDup l -> NoDup (sorted l).
Proof. apply Permutation_NoDup, sorted_perm. Qed.
Lemma sorted_idem l : StronglySorted sle l -> sorted l = l.
Proof. intros H. apply sorted_unique; auto. apply sorted_sorted. apply Permutation_sym, sorted_perm. Qed.

(* ---- vectors ---- *)
Lemma rsum_lsum l : rsum l = lsum (fun x => x) l.
Proof. induction l; simpl; auto. rewrite IHl; auto. Qed.
Lemma rsum_div c l : rsum (map (fun x => x / c) l) = rsum l / c.
Proof. induction l; simpl; [unfold Rdiv; ring|]. rewrite IHl. unfold Rdiv; ring. Qed.
Lemma rsum_scal c l : rsum (map (Rmult c) l) = c * rsum l.
Proof. induction l; simpl; [ring|]. rewrite IHl. ring. Qed.
Lemma map2_nth f l1 l2 i : List.length l1 = List.length l2 -> (i < List.length l1)%nat ->
  nth i (map2 f l1 l2) 0 = f (nth i l1 0) (nth i l2 0).
Proof.
  revert l2 i. induction l1 as [|x r IH]; intros [|y t] i; simpl; try discriminate; try lia.
  intros E Hi. destruct i; auto. apply IH; lia.
Qed.
Lemma map2_length f l1 l2 : List.length l1 = List.length l2 -> List.length (map2 f l1 l2) = List.length l1.
Proof. revert l2. induction l1 as [|x r IH]; intros [|y t]; simpl; try discriminate; auto. Qed.
Lemma map2_mul_div l wts : List.length l = List.length wts -> (forall w, In w wts -> w <> 0) ->
  map2 Rmult (map2 Rdiv l wts) wts = l.
Proof.
  revert wts. induction l as [|x r IH]; intros [|w t]; simpl; try discriminate; auto.
  intros E H. f_equal; [field; apply H; simpl; auto|]. apply IH; auto.
Qed.
Lemma get_all_spec {A} (f : string -> option A) l vs : get_all f l = Some vs ->
  List.length vs = List.length l /\ (forall i k, nth_error l i = Some k -> nth_error vs i = f k) .
Proof.
  revert vs. induction l as [|k r IH]; intros vs; simpl.
  - injection 1 as <-. split; auto. intros [|i]; discriminate.
  - destruct (f k) eqn:E; [|discriminate]. destruct (get_all f r) eqn:G; [|discriminate]. injection 1 as <-.
    destruct (IH l eq_refl) as [H1 H2]. split; [simpl; lia|]. intros [|i] k'; simpl; [injection 1 as <-; auto|apply H2].
Qed.
Lemma get_all_none {A} (f : string -> option A) l : get_all f l = None <-> exists k, In k l /\ f k = None.
Proof.
  induction l as [|k r IH]; simpl.
  - split; [discriminate|intros [k [[] _]]].
  - destruct (f k) eqn:E.
    + destruct (get_all f r) eqn:G.
      * split; [discriminate|]. intros [k' [[<-|H] E']]; [congruence|]. destruct IH as [_ IH]. assert (Some l = None) by eauto. discriminate.
      * split; auto. intros _. destruct IH as [IH _]. destruct (IH eq_refl) as [k' [H1 H2]]. eauto.
    + split; auto. intros _. exists k. auto.
Qed.
Lemma get_all_in {A} (f : string -> option A) l vs v : get_all f l = Some vs -> In v vs -> exists k, In k l /\ f k = Some v.
Proof.
  revert vs. induction l as [|k r IH]; intros vs; simpl.
  - injection 1 as <-. intros [].
  - destruct (f k) eqn:E; [|discriminate]. destruct (get_all f r) eqn:G; [|discriminate]. injection 1 as <-.
    intros [<-|H]; eauto. destruct (IH _ eq_refl H) as [k' [H1 H2]]. eauto.
Qed.

(* ---- b0 ---- *)
Definition b0_mass (els : list string) (init : dict R) (wts : list R) : R := rsum (map2 Rmult (map (fun e => dgetd init e 0) els) wts).
Lemma b0_length els init wts : List.length els = List.length wts -> List.length (b0_of els init wts) = List.length els.
Proof. intros H. unfold b0_of. cbv zeta. rewrite map2_length; rewrite map_length, map2_length; rewrite map_length; auto. Qed.
Lemma b0_nth els init wts i : List.length els = List.length wts -> (i < List.length els)%nat ->
  nth i wts 0 <> 0 ->
  nth i (b0_of els init wts) 0 = dgetd init (nth i els "") 0 / b0_mass els init wts.
Proof.
  intros H Hi Hw. unfold b0_of. cbv zeta. fold (b0_mass els init wts).
  rewrite map2_nth; [|rewrite map_length, map2_length; rewrite map_length; auto|rewrite map_length, map2_length; rewrite map_length; auto].
  rewrite (nth_indep _ 0 (0 / b0_mass els init wts)) by (rewrite map_length, map2_length; rewrite map_length; auto).
  rewrite (map_nth (fun x => x / b0_mass els init wts)). rewrite map2_nth; [|rewrite map_length; auto|rewrite map_length; auto].
  rewrite (nth_indep _ 0 (dgetd init "" 0)) by (rewrite map_length; auto). rewrite (map_nth (fun e => dgetd init e 0)).
  unfold Rdiv. rewrite !Rmult_assoc. f_equal. rewrite Rmult_comm, Rmult_assoc, Rinv_l, Rmult_1_r; auto.
Qed.
Lemma b0_normal els init wts : List.length els = List.length wts -> (forall w, In w wts -> w <> 0) -> b0_mass els init wts <> 0 ->
  rsum (map2 Rmult (b0_of els init wts) wts) = 1.
Proof.
  intros H Hw Hm. unfold b0_of. cbv zeta. fold (b0_mass els init wts).
  rewrite map2_mul_div; auto. { rewrite rsum_div. unfold b0_mass at 1. fold (b0_mass els init wts). field; auto. }
  rewrite map_length, map2_length; rewrite map_length; auto.
Qed.
Lemma b0_mass_pos els init wts : List.length els = List.length wts -> (forall w, In w wts -> 0 < w) ->
  (forall e, In e els -> 0 <= dgetd init e 0) -> (exists e, In e els /\ 0 < dgetd init e 0) -> 0 < b0_mass els init wts.
Proof.
  unfold b0_mass. revert wts. induction els as [|e r IH]; intros [|w t]; simpl; try discriminate.
  - intros _ _ _ [e [[] _]].
  - intros E Hw Hn [k [Hk Hp]]. injection E as E. assert (W := Hw w (or_introl eq_refl)). assert (N := Hn e (or_introl eq_refl)).
    assert (NN : forall l ws, (forall w, In w ws -> 0 < w) -> (forall e, In e l -> 0 <= dgetd init e 0) ->
      0 <= rsum (map2 Rmult (map (fun e => dgetd init e 0) l) ws)).
    { induction l as [|a l IHl]; intros [|b ws] G1 G2; simpl; try lra.
      assert (0 <= dgetd init a 0 * b). { apply Rmult_le_pos; [apply G2; simpl; auto|]. apply Rlt_le, G1; simpl; auto. }
      assert (0 <= rsum (map2 Rmult (map (fun e => dgetd init e 0) l) ws)). { apply IHl; intros; [apply G1|apply G2]; simpl; auto. } lra. }
    destruct Hk as [<-|Hk].
    + assert (0 < dgetd init e 0 * w) by (apply Rmult_lt_0_compat; auto).
      assert (0 <= rsum (map2 Rmult (map (fun e => dgetd init e 0) r) t)) by (apply NN; intros; [apply Hw|apply Hn]; simpl; auto). lra.
    + assert (0 <= dgetd init e 0 * w) by (apply Rmult_le_pos; lra).
      assert (0 < rsum (map2 Rmult (map (fun e => dgetd init e 0) r) t)) by (apply IH; auto; eauto). lra.
Qed.

(* ---- cache ---- *)
Definition ascending (tr : list R) : Prop := forall i j, (i < j < List.length tr)%nat -> nth i tr 0 < nth j tr 0.
Definition wf_species (s : species) : Prop := (2 <= List.length (sp_ranges s))%nat /\
  List.length (sp_coeffs s) = (List.length (sp_ranges s) - 1)%nat /\ ascending (sp_ranges s) /\
  (forall r, In r (sp_coeffs s) -> (9 <= List.length r <= 10)%nat).
(* k is the interval of the fit used at T: lower end exclusive, upper end inclusive, the outer ones extended *)
Definition in_segment (tr : list R) (k : nat) (T : R) : Prop :=
  (S k < List.length tr)%nat /\ (k = O \/ nth k tr 0 < T) /\ (S (S k) = List.length tr \/ T <= nth (S k) tr 0).

Lemma ascending_tl x tr : ascending (x :: tr) -> ascending tr.
Proof. intros H i j Hij. apply (H (S i) (S j)). simpl. lia. Qed.
Lemma ss_le tr T : (searchsorted tr T <= List.length tr)%nat.
Proof. induction tr; simpl; auto. destruct (Rlt_dec a T); lia. Qed.
Lemma ss_lt tr T i : (i < searchsorted tr T)%nat -> nth i tr 0 < T.
Proof.
  revert i. induction tr as [|x r IH]; simpl; [lia|]. intros i. destruct (Rlt_dec x T); [|lia]. intros H. destruct i; auto. apply IH; lia.
Qed.
Lemma ss_ge tr T : (searchsorted tr T < List.length tr)%nat -> T <= nth (searchsorted tr T) tr 0.
Proof. induction tr as [|x r IH]; simpl; [lia|]. destruct (Rlt_dec x T); intros H; [apply IH; lia|lra]. Qed.
Lemma seg_bounds tr T : (2 <= List.length tr)%nat -> (1 <= seg tr T < List.length tr)%nat.
Proof.
  intros H. unfold seg. cbv zeta. assert (L := ss_le tr T).
  destruct (Nat.eqb_spec (searchsorted tr T) 0); [lia|]. destruct (Nat.eqb_spec (searchsorted tr T) (List.length tr)); lia.
Qed.
Lemma seg_in tr T : ascending tr -> (2 <= List.length tr)%nat -> in_segment tr (seg tr T - 1) T.
Proof.
  intros A H. assert (B := seg_bounds tr T H). unfold in_segment. split; [lia|]. unfold seg in *. cbv zeta in *. assert (L := ss_le tr T).
  destruct (Nat.eqb_spec (searchsorted tr T) 0) as [E|E].
  - split; auto. right. cbn [Nat.sub]. assert (G := ss_ge tr T ltac:(lia)). rewrite E in G.
    assert (nth 0 tr 0 < nth 1 tr 0) by (apply A; lia). lra.
  - destruct (Nat.eqb_spec (searchsorted tr T) (List.length tr)) as [E2|E2].
    + split; [right; apply ss_lt; lia|]. left. lia.
    + split; [right; apply ss_lt; lia|]. right. replace (S (searchsorted tr T - 1)) with (searchsorted tr T) by lia. apply ss_ge. lia.
Qed.
Lemma in_segment_unique tr k k' T : ascending tr -> in_segment tr k T -> in_segment tr k' T -> k = k'.
Proof.
  intros A. assert (W : forall k k', (k < k')%nat -> in_segment tr k T -> in_segment tr k' T -> False).
  { intros a b L [H1 [H2 H3]] [G1 [G2 G3]]. destruct G2 as [G2|G2]; [lia|]. destruct H3 as [H3|H3]; [lia|].
    assert (nth (S a) tr 0 <= nth b tr 0). { destruct (Nat.eq_dec (S a) b) as [->|N]; [lra|]. apply Rlt_le, A. lia. } lra. }
  intros H G. destruct (Nat.lt_trichotomy k k') as [L|[->|L]]; auto; exfalso; eauto.
Qed.
Lemma seg_unique tr k T : ascending tr -> (2 <= List.length tr)%nat -> in_segment tr k T -> (seg tr T - 1)%nat = k.
Proof. intros A H K. eapply in_segment_unique; eauto. apply seg_in; auto. Qed.

(* pmax / pmin folds *)
Lemma pmax_spec x y : x <= pmax x y /\ y <= pmax x y.
Proof. unfold pmax. destruct (Rlt_dec x y); lra. Qed.
Lemma pmin_spec x y : pmin x y <= x /\ pmin x y <= y.
Proof. unfold pmin. destruct (Rlt_dec y x); lra. Qed.
Lemma range_fold (lo hi : species -> R) sps mm s : In s sps ->
  let r := fold_left (fun mm s => (pmax (lo s) (fst mm), pmin (hi s) (snd mm))) sps mm in
  lo s <= fst r /\ snd r <= hi s.
Proof.
  assert (M : forall sps mm, fst mm <= fst (fold_left (fun mm s => (pmax (lo s) (fst mm), pmin (hi s) (snd mm))) sps mm) /\
                             snd (fold_left (fun mm s => (pmax (lo s) (fst mm), pmin (hi s) (snd mm))) sps mm) <= snd mm).
  { clear. induction sps as [|s r IH]; intros mm; simpl; [lra|]. destruct (IH (pmax (lo s) (fst mm), pmin (hi s) (snd mm))) as [H1 H2].
    simpl in *. assert (P := pmax_spec (lo s) (fst mm)). assert (Q := pmin_spec (hi s) (snd mm)). lra. }
  revert mm. induction sps as [|a r IH]; intros mm []; simpl.
  - subst a. destruct (M r (pmax (lo s) (fst mm), pmin (hi s) (snd mm))) as [H1 H2]. simpl in *.
    assert (P := pmax_spec (lo s) (fst mm)). assert (Q := pmin_spec (hi s) (snd mm)). lra.
  - apply (IH _ H).
Qed.

Section Cache.
Variable sps : list species.
Hypothesis WF : forall s, In s sps -> wf_species s.
(* the cache holds, for every product, the coefficients of the interval that contained some earlier temperature T0,
   and its validity range lies inside that interval *)
Definition row_ok (T0 : R) (row : list R) (s : species) : Prop :=
  (List.length row = 10)%nat /\
  forall k, (k < 9)%nat -> nth k row 0 = nth k (nth (seg (sp_ranges s) T0 - 1) (sp_coeffs s) []) 0.
Definition cache_ok (c : cache) : Prop := exists T0,
  Forall2 (row_ok T0) (c_a c) sps /\
  (forall s, In s sps -> nth (seg (sp_ranges s) T0 - 1) (sp_ranges s) 0 <= fst (c_valid c) /\
                         snd (c_valid c) <= nth (seg (sp_ranges s) T0) (sp_ranges s) 0).
Lemma wf_row s T : wf_species s -> (9 <= List.length (nth (seg (sp_ranges s) T - 1) (sp_coeffs s) []) <= 10)%nat.
Proof.
  intros [H1 [H2 [H3 H4]]]. apply H4. apply nth_In. assert (B := seg_bounds (sp_ranges s) T H1). lia.
Qed.
Lemma row_overwrite row s T : (List.length row = 10)%nat -> wf_species s ->
  row_ok T (overwrite row (nth (seg (sp_ranges s) T - 1) (sp_coeffs s) [])) s.
Proof.
  intros Hl W. assert (B := wf_row s T W). unfold row_ok, overwrite. split.
  - rewrite app_length, skipn_length. lia.
  - intros k Hk. rewrite app_nth1 by lia. auto.
Qed.
Definition lens (c : cache) : Prop := List.length (c_a c) = List.length sps /\ forall r, In r (c_a c) -> (List.length r = 10)%nat.
Lemma build_ok T c : lens c -> cache_ok (build sps T c).
Proof.
  intros [L1 L2]. exists T. split.
  - unfold build. cbn [c_a]. revert L1 L2. generalize (c_a c). clear c. revert WF. induction sps as [|s r IH]; intros W a L1 L2.
    + destruct a; [constructor|discriminate].
    + destruct a as [|x a]; [discriminate|]. simpl. constructor.
      * cbn [fst snd]. apply row_overwrite; [apply L2; simpl; auto|apply W; simpl; auto].
      * apply IH; [intros; apply W; simpl; auto|simpl in L1; lia|intros; apply L2; simpl; auto].
  - intros s Hs. unfold build. cbn [c_valid]. apply (range_fold (fun s => nth (seg (sp_ranges s) T - 1) (sp_ranges s) 0)
      (fun s => nth (seg (sp_ranges s) T) (sp_ranges s) 0) sps (- big, big) s Hs).
Qed.
Lemma cache_ok_lens c : cache_ok c -> lens c.
Proof.
  intros [T0 [H _]]. clear WF. split.
  - induction H; simpl; auto.
  - intros r Hr. induction H as [|? ? ? ? Hx ? IH]; [destruct Hr|]. destruct Hr as [<-|Hr]; auto. apply Hx.
Qed.
Lemma lens0 : lens (cache0 sps).
Proof.
  split; [unfold cache0; cbn [c_a]; apply map_length|]. intros r Hr. unfold cache0 in Hr. cbn [c_a] in Hr. apply in_map_iff in Hr.
  destruct Hr as [s [<- _]]. apply repeat_length.
Qed.
Lemma init_ok : cache_ok (cache_init sps).
Proof. apply build_ok, lens0. Qed.
Lemma ensure_ok T c : cache_ok c -> cache_ok (ensure sps T c).
Proof.
  intros H. unfold ensure. destruct (Rlt_dec _ _); [apply build_ok, cache_ok_lens; auto|].
  destruct (Rlt_dec _ _); [apply build_ok, cache_ok_lens; auto|auto].
Qed.
Lemma calls_ok l c : cache_ok c -> cache_ok (calls sps l c).
Proof. revert c. induction l as [|qT r IH]; intros c H; simpl; auto. apply IH. unfold call. cbn [snd]. apply ensure_ok; auto. Qed.

(* a temperature at which two fits of the same product meet *)
Definition breakpoint (s : species) (T : R) : Prop := exists k, (0 < k)%nat /\ (S k < List.length (sp_ranges s))%nat /\ T = nth k (sp_ranges s) 0.

Lemma q_row_ext q a b T : (forall k, (k < 9)%nat -> nth k a 0 = nth k b 0) -> q_row q a T = q_row q b T.
Proof.
  intros H. destruct q; cbn [q_row]; unfold H0_row, S0_row, Cp0_row, H0_J_row, S0_J_row, Cp0_J_row, cf; rewrite !H by lia; reflexivity.
Qed.
(* after ensure T the rows are those of an interval that contains T, endpoints included *)
Lemma ensure_rows T c : cache_ok c -> Forall2 (fun row s => exists k, (S k < List.length (sp_ranges s))%nat /\
   (forall j, (j < 9)%nat -> nth j row 0 = nth j (nth k (sp_coeffs s) []) 0) /\
   (in_segment (sp_ranges s) k T \/ ((0 < k)%nat /\ T = nth k (sp_ranges s) 0))) (c_a (ensure sps T c)) sps.
Proof.
  intros H.
  assert (F : forall c', lens c' -> Forall2 (fun row s => exists k, (S k < List.length (sp_ranges s))%nat /\
     (forall j, (j < 9)%nat -> nth j row 0 = nth j (nth k (sp_coeffs s) []) 0) /\
     (in_segment (sp_ranges s) k T \/ ((0 < k)%nat /\ T = nth k (sp_ranges s) 0))) (c_a (build sps T c')) sps).
  { intros c' L. unfold build. cbn [c_a]. destruct L as [L1 L2]. revert L1 L2. generalize (c_a c'). clear c'. revert WF.
    clear H. induction sps as [|s r IH]; intros W a L1 L2.
    - destruct a; [constructor|discriminate].
    - destruct a as [|x a]; [discriminate|]. simpl. constructor.
      + cbn [fst snd]. assert (Ws := W s (or_introl eq_refl)). exists (seg (sp_ranges s) T - 1)%nat.
        assert (B := seg_bounds (sp_ranges s) T (proj1 Ws)). split; [lia|]. split; [apply (row_overwrite x s T); auto; apply L2; simpl; auto|].
        left. apply seg_in; [apply Ws|apply Ws].
      + apply IH; [intros; apply W; simpl; auto|simpl in L1; lia|intros; apply L2; simpl; auto]. }
  unfold ensure. destruct (Rlt_dec T (fst (c_valid c))) as [L|L]; [apply F, cache_ok_lens; auto|].
  destruct (Rlt_dec (snd (c_valid c)) T) as [G|G]; [apply F, cache_ok_lens; auto|].
  clear F. destruct H as [T0 [HF HV]]. revert WF HV. induction HF as [|row s rows ss Hr HF IH]; intros W HV; constructor.
  - destruct Hr as [_ Hr]. exists (seg (sp_ranges s) T0 - 1)%nat. assert (Ws := W s (or_introl eq_refl)).
    assert (B := seg_bounds (sp_ranges s) T0 (proj1 Ws)). destruct (HV s (or_introl eq_refl)) as [V1 V2].
    split; [lia|]. split; [auto|]. set (k := (seg (sp_ranges s) T0 - 1)%nat) in *.
    replace (seg (sp_ranges s) T0) with (S k) in V2 by (unfold k; lia).
    destruct (Nat.eq_dec k 0) as [K|K].
    + left. split; [unfold k; lia|]. split; auto. right. lra.
    + destruct (Req_dec T (nth k (sp_ranges s) 0)) as [E|E]; [right; split; auto; lia|].
      left. split; [unfold k; lia|]. split; right; lra.
  - apply IH; [intros; apply W; simpl; auto|intros; apply HV; simpl; auto].
Qed.
End Cache.
