(* Claims C13-C16: gas mixtures (Properties) - initial composition, product list, species property functions, cache. *)
From Coq Require Import Sorting.Sorted Permutation.
From Verif Require Import Lib_R Lib_Py Model_Species Data_Thermo Proofs_Species.
Open Scope string_scope. Open Scope list_scope. Open Scope R_scope.

(* atomic weight of an element in the data set *)
Definition weight (sp : spec_data) (e : string) : R := dgetd (element_wts sp) e 0.
Lemma rsum_map2 a b : List.length a = List.length b ->
  rsum (map2 Rmult a b) = lsum (fun i => nth i a 0 * nth i b 0) (seq 0 (List.length a)).
Proof.
  revert b. induction a as [|x r IH]; intros [|y t]; simpl; try discriminate; auto. intros E. injection E as E. rewrite IH by auto.
  rewrite <- seq_shift, lsum_map. reflexivity.
Qed.
Lemma mk_inv sp d p : mk_properties sp (Some d) = Ok p ->
  get_all (dget (element_wts sp)) (sorted (dkeys d)) = Some (p_wts p) /\ p_elements p = sorted (dkeys d) /\
  p_b0 p = b0_of (sorted (dkeys d)) d (p_wts p) /\
  List.length (p_elements p) = List.length (p_wts p) /\
  (forall i, (i < List.length (p_elements p))%nat -> nth i (p_wts p) 0 = weight sp (nth i (p_elements p) "")).
Proof.
  unfold mk_properties. cbv zeta. destruct (forallb _ _); [|discriminate].
  destruct (get_all _ _) as [wts|] eqn:G; [|discriminate]. injection 1 as <-. cbn [p_wts p_elements p_b0].
  destruct (get_all_spec _ _ _ G) as [L N]. repeat split; auto. intros i Hi.
  assert (E : nth_error (sorted (dkeys d)) i = Some (nth i (sorted (dkeys d)) "")) by (apply nth_error_nth'; auto).
  assert (K := N _ _ E). unfold weight, dgetd. rewrite <- K.
  assert (Hi' : (i < List.length wts)%nat) by lia. rewrite (nth_error_nth' wts 0 Hi'). reflexivity.
Qed.

(* ---------- C13 ---------- *)
Theorem C13_mass_normalised (sp : spec_data) (d : dict R) (p : props) :
  mk_properties sp (Some d) = Ok p ->
  (forall e, In e (dkeys d) -> 0 < weight sp e) ->
  (forall e, In e (dkeys d) -> 0 <= dgetd d e 0) -> (exists e, In e (dkeys d) /\ 0 < dgetd d e 0) ->
  List.length (p_b0 p) = List.length (p_elements p) /\
  lsum (fun i => nth i (p_b0 p) 0 * weight sp (nth i (p_elements p) "")) (seq 0 (List.length (p_elements p))) = 1 /\
  (forall i, (i < List.length (p_elements p))%nat -> 0 <= nth i (p_b0 p) 0).
Proof.
  intros H Hw Hn Hp. destruct (mk_inv sp d p H) as [G [E [B [L W]]]].
  assert (WP : forall w, In w (p_wts p) -> 0 < w).
  { intros w Hi. apply In_nth with (d := 0) in Hi. destruct Hi as [i [Hi <-]]. rewrite W by lia. apply Hw.
    rewrite E. apply in_sorted, nth_In. rewrite <- E. lia. }
  assert (M : 0 < b0_mass (sorted (dkeys d)) d (p_wts p)).
  { apply b0_mass_pos; [congruence|auto| |]. { intros e He. apply Hn, in_sorted; auto. }
    destruct Hp as [e [He1 He2]]. exists e. split; auto. apply in_sorted; auto. }
  assert (LB : List.length (p_b0 p) = List.length (p_elements p)) by (rewrite B, E; apply b0_length; congruence).
  split; [auto|]. split.
  - rewrite <- (b0_normal (sorted (dkeys d)) d (p_wts p)); [|congruence|intros w Hi; assert (Q := WP w Hi); lra|lra].
    rewrite <- B. rewrite rsum_map2 by congruence. rewrite LB. apply lsum_ext. intros i Hi. apply in_seq in Hi. rewrite W by lia. auto.
  - intros i Hi. rewrite B, b0_nth.
    + apply Rdiv_le_0_compat; auto. apply Hn. apply in_sorted, nth_In. congruence.
    + congruence. + congruence.
    + rewrite W by lia. assert (Q : 0 < weight sp (nth i (p_elements p) "")); [|lra]. apply Hw. rewrite E. apply in_sorted, nth_In. congruence.
Qed.
(* the relative amounts are those the user gave *)
Theorem C13_relative_amounts (sp : spec_data) (d : dict R) (p : props) (i j : nat) :
  mk_properties sp (Some d) = Ok p -> (forall e, In e (dkeys d) -> weight sp e <> 0) ->
  (i < List.length (p_elements p))%nat -> (j < List.length (p_elements p))%nat ->
  nth i (p_b0 p) 0 * dgetd d (nth j (p_elements p) "") 0 = nth j (p_b0 p) 0 * dgetd d (nth i (p_elements p) "") 0.
Proof.
  intros H Hw Hi Hj. destruct (mk_inv sp d p H) as [G [E [B [L W]]]].
  assert (WN : forall k, (k < List.length (p_elements p))%nat -> nth k (p_wts p) 0 <> 0).
  { intros k Hk. rewrite W by lia. apply Hw. rewrite E. apply in_sorted, nth_In. congruence. }
  rewrite B, !b0_nth; auto; try congruence. rewrite <- E. unfold Rdiv. ring.
Qed.
Lemma dgetd_scale c (d : dict R) e : dgetd (map (fun kv => (fst kv, c * snd kv)) d) e 0 = c * dgetd d e 0.
Proof.
  unfold dgetd. induction d as [|[k v] r IH]; simpl; [ring|]. destruct (String.eqb e k); auto.
Qed.
(* multiplying every amount by the same factor changes nothing at all in the resulting object *)
Theorem C13_scale_invariant (sp : spec_data) (d : dict R) (c : R) : c <> 0 ->
  mk_properties sp (Some (map (fun kv => (fst kv, c * snd kv)) d)) = mk_properties sp (Some d).
Proof.
  intros Hc. unfold mk_properties. cbv zeta.
  replace (dkeys (map (fun kv => (fst kv, c * snd kv)) d)) with (dkeys d) by (unfold dkeys; rewrite map_map; reflexivity).
  destruct (forallb _ _); auto. destruct (get_all _ _) as [wts|]; auto. f_equal. f_equal. unfold b0_of. cbv zeta. f_equal.
  assert (E : map2 Rmult (map (fun e => dgetd (map (fun kv => (fst kv, c * snd kv)) d) e 0) (sorted (dkeys d))) wts =
              map (Rmult c) (map2 Rmult (map (fun e => dgetd d e 0) (sorted (dkeys d))) wts)).
  { generalize (sorted (dkeys d)). intros l. revert wts. induction l as [|e r IH]; intros [|w t]; simpl; auto.
    rewrite dgetd_scale, IH. f_equal. ring. }
  rewrite E, rsum_scal, map_map. apply map_ext. intros x. unfold Rdiv. rewrite Rinv_mult. 
  rewrite <- Rmult_assoc. rewrite (Rmult_comm c x), (Rmult_assoc x c), Rinv_r, Rmult_1_r; auto.
Qed.
(* nor does the order in which the user wrote the dictionary *)
Lemma dget_perm {A} (d d' : dict A) k : dwf d -> Permutation d d' -> dget d' k = dget d k.
Proof.
  intros W P. assert (W' : dwf d') by (unfold dwf, dkeys in *; eapply Permutation_NoDup; [apply Permutation_map; exact P|exact W]).
  destruct (dget d k) eqn:E.
  - apply In_dget; auto. eapply Permutation_in; [exact P|]. apply dget_In; auto.
  - apply dget_None in E. apply dget_None. intros H. apply E. unfold dkeys in *. eapply Permutation_in; [apply Permutation_sym, Permutation_map; exact P|exact H].
Qed.
Theorem C13_order_independent (sp : spec_data) (d d' : dict R) : dwf d -> Permutation d d' ->
  mk_properties sp (Some d') = mk_properties sp (Some d).
Proof.
  intros W P. unfold mk_properties. cbv zeta.
  replace (sorted (dkeys d')) with (sorted (dkeys d)) by (apply sorted_ext, Permutation_map; auto).
  destruct (forallb _ _); auto. destruct (get_all _ _) as [wts|]; auto. f_equal. f_equal. unfold b0_of. cbv zeta.
  replace (map (fun e => dgetd d' e 0) (sorted (dkeys d))) with (map (fun e => dgetd d e 0) (sorted (dkeys d))); auto.
  apply map_ext. intros e. unfold dgetd. rewrite (dget_perm d d' e); auto.
Qed.

(* ---------- C14 ---------- *)
(* l1 can be obtained from l2 by deleting entries: same order *)
Inductive subseq {A} : list A -> list A -> Prop :=
| sub_nil l : subseq [] l
| sub_take x l1 l2 : subseq l1 l2 -> subseq (x :: l1) (x :: l2)
| sub_skip x l1 l2 : subseq l1 l2 -> subseq l1 (x :: l2).
Lemma filter_subseq {A} (f : A -> bool) l : subseq (filter f l) l.
Proof. induction l as [|x r IH]; simpl; [constructor|]. destruct (f x); constructor; auto. Qed.
Lemma map_subseq {A C} (f : A -> C) l1 l2 : subseq l1 l2 -> subseq (map f l1) (map f l2).
Proof. induction 1; simpl; constructor; auto. Qed.
(* an element is known if some product of the data set contains it *)
Definition known (sp : spec_data) (e : string) : Prop := exists n s, In (n, s) (products sp) /\ In e (dkeys (sp_elems s)).
Lemma known_iff sp e : str_in e (valid_elements sp) = true <-> known sp e.
Proof.
  rewrite str_in_iff. unfold valid_elements, known. rewrite in_flat_map. split.
  - intros [[n s] [H1 H2]]. exists n, s. auto.
  - intros [n [s [H1 H2]]]. exists (n, s). auto.
Qed.
Theorem C14_rejections (sp : spec_data) :
  mk_properties sp None = Err ValueError /\
  (forall d : dict R, (exists e, In e (dkeys d) /\ ~ known sp e) -> mk_properties sp (Some d) = Err ValueError) /\
  (forall d : dict R, (forall e, In e (dkeys d) -> known sp e) -> (exists e, In e (dkeys d) /\ dget (element_wts sp) e = None) ->
     mk_properties sp (Some d) = Err KeyError) /\
  (forall d : dict R, (forall e, In e (dkeys d) -> known sp e /\ dget (element_wts sp) e <> None) -> exists p, mk_properties sp (Some d) = Ok p).
Proof.
  split; [reflexivity|].
  assert (F : forall d : dict R, (forall e, In e (dkeys d) -> known sp e) -> forallb (fun e => str_in e (valid_elements sp)) (sorted (dkeys d)) = true).
  { intros d H. apply forallb_forall. intros e He. apply known_iff, H. apply in_sorted; auto. }
  split; [|split].
  - intros d [e [He Hk]]. unfold mk_properties. cbv zeta. destruct (forallb _ _) eqn:E; auto.
    rewrite forallb_forall in E. exfalso. apply Hk, known_iff, E, in_sorted; auto.
  - intros d Hk [e [He Hw]]. unfold mk_properties. cbv zeta. rewrite F by auto.
    replace (get_all (dget (element_wts sp)) (sorted (dkeys d))) with (@None (list R)); auto. symmetry. apply get_all_none. exists e. split; auto. apply in_sorted; auto.
  - intros d H. unfold mk_properties. cbv zeta. rewrite F by (intros; apply H; auto).
    destruct (get_all _ _) eqn:G; [eauto|]. apply get_all_none in G. destruct G as [e [He Hw]]. exfalso. apply (in_sorted e (dkeys d)) in He.
    destruct (H e He) as [_ K]. auto.
Qed.
Theorem C14_products (sp : spec_data) (d : dict R) (p : props) : mk_properties sp (Some d) = Ok p ->
  (* elements: the user's keys, sorted *)
  Permutation (dkeys d) (p_elements p) /\ StronglySorted (fun a b => String.leb a b = true) (p_elements p) /\
  (* products: exactly the formable ones, in data-set order *)
  subseq (p_products p) (dkeys (products sp)) /\
  (dwf (products sp) -> forall n s, In (n, s) (products sp) ->
     (In n (p_products p) <-> forall e, In e (dkeys (sp_elems s)) -> In e (dkeys d))) /\
  (* stoichiometry matrix: row i, column j is the number of atoms of element i in product j *)
  (dwf (products sp) -> forall i j s, (i < List.length (p_elements p))%nat -> (j < List.length (p_products p))%nat ->
     In (nth j (p_products p) "", s) (products sp) ->
     nth j (nth i (p_aij p) []) 0 = dgetd (sp_elems s) (nth i (p_elements p) "") 0 /\ nth j (p_wt_mole p) 0 = sp_wt s).
Proof.
  unfold mk_properties. cbv zeta. destruct (forallb _ _); [|discriminate].
  destruct (get_all _ _) as [wts|] eqn:G; [|discriminate]. injection 1 as <-. cbn [p_elements p_products p_aij p_wt_mole].
  split; [apply sorted_perm|]. split; [apply sorted_sorted|]. split.
  { change (dkeys (products sp)) with (map fst (products sp)). apply map_subseq, filter_subseq. }
  assert (FM : forall s, formable (sorted (dkeys d)) s = true <-> forall e, In e (dkeys (sp_elems s)) -> In e (dkeys d)).
  { intros s. unfold formable. rewrite forallb_forall. split; intros K e He.
    - apply in_sorted, str_in_iff; auto. - apply str_in_iff, in_sorted; auto. }
  assert (U : dwf (products sp) -> forall n s s', In (n, s) (products sp) -> In (n, s') (products sp) -> s = s').
  { intros Hwf n s s' H1 H2. apply In_dget in H1; auto. apply In_dget in H2; auto. congruence. }
  split.
  - intros Hwf n s Hi. rewrite <- FM. split.
    + intros K. apply in_map_iff in K. destruct K as [[n' s'] [E K]]. cbn in E. subst n'. apply filter_In in K. destruct K as [K1 K2].
      rewrite (U Hwf n s s' Hi K1). auto.
    + intros K. apply in_map_iff. exists (n, s). split; auto. apply filter_In; auto.
  - intros Hwf i j s Hli Hlj Hin. rewrite map_length in Hlj.
    set (pr := filter (fun np => formable (sorted (dkeys d)) (snd np)) (products sp)) in *.
    assert (N : nth j pr ("", s) = (nth j (map fst pr) "", s)).
    { assert (Hm : nth j (map fst pr) "" = fst (nth j pr ("", s))). { change "" with (fst ("", s)) at 1. apply map_nth. }
      rewrite Hm in *. destruct (nth j pr ("", s)) as [n s'] eqn:E. cbn [fst] in *. f_equal.
      assert (K : In (n, s') pr) by (rewrite <- E; apply nth_In; auto). apply filter_In in K. destruct K as [K _].
      symmetry. apply (U Hwf n); auto. }
    split.
    + rewrite (nth_indep _ [] (map (fun np => dgetd (sp_elems (snd np)) "" 0) pr)) by (rewrite map_length; auto).
      rewrite (map_nth (fun e => map (fun np => dgetd (sp_elems (snd np)) e 0) pr)).
      rewrite (nth_indep _ 0 (dgetd (sp_elems (snd ("", s))) (nth i (sorted (dkeys d)) "") 0)) by (rewrite map_length; auto).
      rewrite (map_nth (fun np => dgetd (sp_elems (snd np)) (nth i (sorted (dkeys d)) "") 0)). rewrite N. reflexivity.
    + rewrite (nth_indep _ 0 (sp_wt (snd ("", s)))) by (rewrite map_length; auto).
      rewrite (map_nth (fun np => sp_wt (snd np))). rewrite N. reflexivity.
Qed.

(* ---------- C16 ---------- *)
(* the i-th entry of the array returned by a property function, called at T on an object on which the calls hist were made before *)
Definition answer (sps : list species) (hist : list (query * R)) (q : query) (T : R) (i : nat) : R :=
  nth i (fst (call sps q T (calls sps hist (cache_init sps)))) 0.
Lemma Forall2_nth_r {A C} (P : A -> C -> Prop) l1 l2 i a c : Forall2 P l1 l2 -> (i < List.length l2)%nat -> P (nth i l1 a) (nth i l2 c).
Proof. intros H. revert i. induction H; intros i; simpl; [lia|]. destruct i; auto. intros. apply IHForall2. lia. Qed.
Lemma Forall2_len {A C} (P : A -> C -> Prop) l1 l2 : Forall2 P l1 l2 -> List.length l1 = List.length l2.
Proof. induction 1; simpl; auto. Qed.
Definition sp0 : species := mkSpecies [] [] 0 [].
Lemma answer_segment sps hist q T i : (forall s, In s sps -> wf_species s) -> (i < List.length sps)%nat ->
  let s := nth i sps sp0 in exists k, (S k < List.length (sp_ranges s))%nat /\
    answer sps hist q T i = q_row q (nth k (sp_coeffs s) []) T /\
    (in_segment (sp_ranges s) k T \/ ((0 < k)%nat /\ T = nth k (sp_ranges s) 0)).
Proof.
  intros WF Hi. cbv zeta.
  assert (E := ensure_rows sps WF T _ (calls_ok sps WF hist _ (init_ok sps WF))).
  assert (L := Forall2_len _ _ _ E).
  destruct (Forall2_nth_r _ _ _ i [] sp0 E Hi) as [k [H1 [H2 H3]]]. exists k. split; auto. split; auto.
  unfold answer, call. cbv zeta. cbn [fst]. rewrite (nth_indep _ 0 (q_row q [] T)) by (rewrite map_length; lia).
  rewrite (map_nth (fun a => q_row q a T)). apply q_row_ext. auto.
Qed.
(* Away from the temperatures where two fits meet, every answer is the value of the fit whose interval contains T,
   whatever was asked before. *)
Theorem C16_transparent_partial (sps : list species) (hist : list (query * R)) (q : query) (T : R) (i k : nat) :
  (forall s, In s sps -> wf_species s) -> (i < List.length sps)%nat ->
  let s := nth i sps sp0 in ~ breakpoint s T -> in_segment (sp_ranges s) k T ->
  answer sps hist q T i = q_row q (nth k (sp_coeffs s) []) T.
Proof.
  cbv zeta. intros WF Hi Hb Hk. destruct (answer_segment sps hist q T i WF Hi) as [k' [H1 [H2 H3]]]. rewrite H2.
  assert (Ws : wf_species (nth i sps sp0)) by (apply WF, nth_In; auto).
  destruct H3 as [H3|[H3 H4]].
  - replace k' with k; auto. apply (in_segment_unique (sp_ranges (nth i sps sp0)) k k' T); auto. apply Ws.
  - exfalso. apply Hb. exists k'. auto.
Qed.
Theorem C16_same_as_fresh_partial (sps : list species) (hist : list (query * R)) (q : query) (T : R) (i : nat) :
  (forall s, In s sps -> wf_species s) -> (i < List.length sps)%nat -> ~ breakpoint (nth i sps sp0) T ->
  answer sps hist q T i = answer sps [] q T i.
Proof.
  intros WF Hi Hb. assert (Ws : wf_species (nth i sps sp0)) by (apply WF, nth_In; auto).
  rewrite !(C16_transparent_partial sps _ q T i (seg (sp_ranges (nth i sps sp0)) T - 1)); auto; apply seg_in; apply Ws.
Qed.
(* at a breakpoint the answer is one of the two fits that meet there *)
Theorem C16_breakpoint_partial (sps : list species) (hist : list (query * R)) (q : query) (T : R) (i k : nat) :
  (forall s, In s sps -> wf_species s) -> (i < List.length sps)%nat ->
  let s := nth i sps sp0 in (S (S k) < List.length (sp_ranges s))%nat -> T = nth (S k) (sp_ranges s) 0 ->
  answer sps hist q T i = q_row q (nth k (sp_coeffs s) []) T \/ answer sps hist q T i = q_row q (nth (S k) (sp_coeffs s) []) T.
Proof.
  cbv zeta. intros WF Hi Hk HT. destruct (answer_segment sps hist q T i WF Hi) as [k' [H1 [H2 H3]]]. rewrite H2.
  assert (Ws : wf_species (nth i sps sp0)) by (apply WF, nth_In; auto). destruct Ws as [_ [_ [A _]]].
  set (tr := sp_ranges (nth i sps sp0)) in *.
  assert (Sk : in_segment tr k T).
  { split; [lia|]. split; [|right; lra]. destruct k; auto. right. rewrite HT. apply A. lia. }
  destruct H3 as [H3|[H3 H4]].
  - left. f_equal. f_equal. apply (in_segment_unique tr k' k T); auto.
  - right. replace k' with (S k); auto.
    destruct (Nat.lt_trichotomy k' (S k)) as [L|[L|L]]; auto.
    + assert (nth k' tr 0 < nth (S k) tr 0) by (apply A; lia). lra.
    + assert (nth (S k) tr 0 < nth k' tr 0) by (apply A; lia). lra.
Qed.
(* With the shipped data the claim fails at a breakpoint: a janaf nitrogen mixture (products N, N2) asked for a value at
   1500 K and then for Cp0 of N2 at 1000 K returns something else than a fresh object does. *)
Lemma big_range_R : map dR [(2, 2); (1, 3); (6, 3); (2, 4)]%Z = [200; 1000; 6000; 20000].
Proof. unfold dR. cbn [map fst snd powerRZ]. repeat (f_equal; try (simpl; lra)). Qed.
Ltac rdec := repeat (match goal with |- context [Rlt_dec ?a ?b] => destruct (Rlt_dec a b) as [?L|?L]; try (exfalso; lra) end).
Definition br : list R := [200; 1000; 6000; 20000].
Lemma seg_br_low : seg br 999 = 1%nat.
Proof. unfold seg, br. cbn [searchsorted]. rdec. reflexivity. Qed.
Lemma seg_br_mid : seg br 1500 = 2%nat.
Proof. unfold seg, br. cbn [searchsorted]. rdec. reflexivity. Qed.
Lemma two_products_cache (s1 s2 : species) q a1 a2 b1 b2 :
  sp_ranges s1 = br -> sp_ranges s2 = br -> nth 0 (sp_coeffs s1) [] = a1 -> nth 0 (sp_coeffs s2) [] = a2 ->
  nth 1 (sp_coeffs s1) [] = b1 -> nth 1 (sp_coeffs s2) [] = b2 ->
  List.length a2 = 9%nat -> List.length b2 = 9%nat ->
  answer [s1; s2] [] q 1000 1 = q_row q a2 1000 /\ answer [s1; s2] [(q, 1500)] q 1000 1 = q_row q b2 1000.
Proof.
  intros R1 R2 A1 A2 B1 B2 La Lb.
  assert (BIG : 20000 < big). { unfold big. apply Rlt_trans with (10 ^ 5); [lra|]. apply Rlt_pow; [lra|lia]. }
  assert (BV : forall T j lo hi c, seg br T = j -> nth (j - 1) br 0 = lo -> nth j br 0 = hi -> 0 < lo < hi -> hi <= 20000 ->
     c_valid (build [s1; s2] T c) = (lo, hi)).
  { intros T j lo hi c Hj Hlo Hhi Hl Hh. unfold build. cbn [c_valid fold_left fst snd]. rewrite R1, R2, Hj, Hlo, Hhi.
    unfold pmax, pmin. rdec. reflexivity. }
  assert (V1 : c_valid (cache_init [s1; s2]) = (200, 1000)).
  { unfold cache_init. apply (BV 999 1%nat); try reflexivity; try lra. apply seg_br_low. }
  assert (W1 : forall k (l : list R), (k < 9)%nat -> forall d : list R, List.length d = 9%nat -> nth k (overwrite l d) 0 = nth k d 0).
  { intros k l Hk d Hd. unfold overwrite. rewrite app_nth1; auto. lia. }
  split.
  - unfold answer, calls, call. cbn [fold_left]. cbv zeta. cbn [fst]. unfold ensure. rewrite V1. cbn [fst snd]. rdec.
    unfold cache_init, build. cbn [c_a cache0 map combine nth fst snd]. rewrite R2, seg_br_low. cbn [Nat.sub]. rewrite A2.
    apply q_row_ext. intros k Hk. apply W1; auto.
  - unfold answer, calls, call. cbn [fold_left]. cbv zeta. cbn [fst snd].
    assert (E1 : ensure [s1; s2] 1500 (cache_init [s1; s2]) = build [s1; s2] 1500 (cache_init [s1; s2])).
    { unfold ensure. rewrite V1. cbn [fst snd]. rdec. reflexivity. }
    rewrite E1. assert (V2 : c_valid (build [s1; s2] 1500 (cache_init [s1; s2])) = (1000, 6000)).
    { apply (BV 1500 2%nat); try reflexivity; try lra. apply seg_br_mid. }
    unfold ensure. rewrite V2. cbn [fst snd]. rdec.
    unfold build at 1. cbn [c_a]. unfold cache_init, build. cbn [c_a cache0 map combine nth fst snd]. rewrite R2, seg_br_mid. cbn [Nat.sub]. rewrite B2.
    apply q_row_ext. intros k Hk. apply W1; auto.
Qed.
Definition get_sp (n : string) : spD := match dget (d_products janaf_dec) n with Some s => s | None => mkSpD [] [] (0, 0)%Z [] end.
Definition N_d : spD := Eval vm_compute in get_sp "N".
Definition N2_d : spD := Eval vm_compute in get_sp "N2".
Theorem C16_breakpoint_refuted : exists p : props, mk_properties (specR janaf_dec) (Some [("N", 1)]) = Ok p /\
  p_products p = ["N"; "N2"] /\ answer (p_species p) [(QCp0, 1500)] QCp0 1000 1 <> answer (p_species p) [] QCp0 1000 1.
Proof.
  eexists. split; [|split].
  - unfold mk_properties. cbv zeta.
    replace (sorted (dkeys [("N", 1)])) with ["N"] by reflexivity.
    assert (F : filter (fun np => formable ["N"] (snd np)) (products (specR janaf_dec)) = [("N", spR N_d); ("N2", spR N2_d)]).
    { cbv -[R IZR Rmult powerRZ]. reflexivity. }
    rewrite F.
    assert (G : get_all (dget (element_wts (specR janaf_dec))) ["N"] = Some [dR (1400674, -5)%Z]).
    { cbv -[R IZR Rmult powerRZ]. reflexivity. }
    rewrite G. assert (K : forallb (fun e => str_in e (valid_elements (specR janaf_dec))) ["N"] = true).
    { cbv -[R IZR Rmult powerRZ]. reflexivity. }
    rewrite K. reflexivity.
  - reflexivity.
  - cbn [p_species map snd].
    destruct (two_products_cache (spR N_d) (spR N2_d) QCp0 _ _ _ _ big_range_R big_range_R eq_refl eq_refl eq_refl eq_refl eq_refl eq_refl) as [E1 E2].
    rewrite E1, E2. clear. cbn [q_row]. unfold Cp0_row, cf. cbn [spR N2_d d_coeffs sp_coeffs map nth]. unfold dR. cbn [fst snd powerRZ Pos.to_nat Pos.iter_op Nat.add].
    intros H. repeat match type of H with context [Pos.to_nat ?p] => let n := eval compute in (Pos.to_nat p) in change (Pos.to_nat p) with n in H end. lra.
Qed.

(* ---------- C15 ---------- *)
(* fits: for any coefficients, Cp/R is the derivative of T * (H/RT), dS/dT = Cp/T, and the three applyJ functions are the
   derivatives of the functions they belong to *)
Lemma fit_derivs (a : list R) (T : R) : 0 < T ->
  is_derive (fun t => t * H0_row a t) T (Cp0_row a T) /\ is_derive (S0_row a) T (Cp0_row a T / T) /\
  is_derive (H0_row a) T (H0_J_row a T) /\ is_derive (S0_row a) T (S0_J_row a T) /\ is_derive (Cp0_row a) T (Cp0_J_row a T).
Proof.
  intros HT. unfold H0_row, S0_row, Cp0_row, H0_J_row, S0_J_row, Cp0_J_row.
  assert (T <> 0) by lra. assert (T * (T * 1) <> 0) by (simpl; nra).
  split; [|split; [|split; [|split]]]; (auto_derive; [repeat split; auto; nra|field; auto]).
Qed.
(* away from breakpoints the interval is the same in a neighbourhood *)
Lemma segment_local tr k T : ascending tr -> in_segment tr k T -> (forall m, (0 < m)%nat -> (S m < List.length tr)%nat -> T <> nth m tr 0) ->
  exists d : posreal, forall t, Rabs (t - T) < d -> in_segment tr k t /\ (forall m, (0 < m)%nat -> (S m < List.length tr)%nat -> t <> nth m tr 0).
Proof.
  intros A [H1 [H2 H3]] Hb.
  assert (D1 : exists d : posreal, forall t, Rabs (t - T) < d -> k = O \/ nth k tr 0 < t).
  { destruct H2 as [H2|H2]; [exists (mkposreal 1 Rlt_0_1); auto|]. destruct (near_gt _ _ H2) as [d Hd]. exists d. auto. }
  assert (D2 : exists d : posreal, forall t, Rabs (t - T) < d -> S (S k) = List.length tr \/ t < nth (S k) tr 0).
  { destruct H3 as [H3|H3]; [exists (mkposreal 1 Rlt_0_1); auto|].
    destruct (Nat.eq_dec (S (S k)) (List.length tr)) as [E|E]; [exists (mkposreal 1 Rlt_0_1); auto|].
    assert (T < nth (S k) tr 0). { assert (T <> nth (S k) tr 0) by (apply Hb; lia). lra. }
    destruct (near_lt _ _ H) as [d Hd]. exists d. auto. }
  destruct (near_and _ _ _ D1 D2) as [d Hd]. exists d. intros t Ht. destruct (Hd t Ht) as [L U]. split.
  - split; [auto|]. split; [auto|]. destruct U; auto. right; lra.
  - intros m Hm1 Hm2 E. destruct (Nat.le_gt_cases m k) as [C|C].
    + destruct L as [L|L]; [lia|]. assert (nth m tr 0 <= nth k tr 0). { destruct (Nat.eq_dec m k) as [->|N]; [lra|]. apply Rlt_le, A. lia. } lra.
    + destruct U as [U|U]; [lia|]. assert (nth (S k) tr 0 <= nth m tr 0). { destruct (Nat.eq_dec (S k) m) as [->|N]; [lra|]. apply Rlt_le, A. lia. } lra.
Qed.
(* For every product, after any history of calls, at every positive temperature which is not a junction of two fits of that
   product, in terms of the values the object returns: *)
Theorem C15_consistent (sps : list species) (hist : list (query * R)) (T : R) (i : nat) :
  (forall s, In s sps -> wf_species s) -> (i < List.length sps)%nat -> 0 < T -> ~ breakpoint (nth i sps sp0) T ->
  let f := fun q t => answer sps hist q t i in
  derivable_pt_lim (fun t => t * f QH0 t) T (f QCp0 T) /\
  derivable_pt_lim (f QS0) T (f QCp0 T / T) /\
  (forall v, derivable_pt_lim (f QH0) T (f (QH0_J 1) T) /\ f (QH0_J v) T = v * f (QH0_J 1) T) /\
  (forall v, derivable_pt_lim (f QS0) T (f (QS0_J 1) T) /\ f (QS0_J v) T = v * f (QS0_J 1) T) /\
  (forall v, derivable_pt_lim (f QCp0) T (f (QCp0_J 1) T) /\ f (QCp0_J v) T = v * f (QCp0_J 1) T).
Proof.
  intros WF Hi HT Hb. cbv zeta. assert (Ws : wf_species (nth i sps sp0)) by (apply WF, nth_In; auto).
  set (s := nth i sps sp0) in *. set (k := (seg (sp_ranges s) T - 1)%nat).
  assert (Sk : in_segment (sp_ranges s) k T) by (apply seg_in; apply Ws).
  assert (Hb' : forall m, (0 < m)%nat -> (S m < List.length (sp_ranges s))%nat -> T <> nth m (sp_ranges s) 0).
  { intros m M1 M2 E. apply Hb. exists m. auto. }
  destruct (segment_local _ _ _ (proj1 (proj2 (proj2 Ws))) Sk Hb') as [d Hd].
  set (a := nth k (sp_coeffs s) []).
  assert (AT : forall q, answer sps hist q T i = q_row q a T) by (intros; apply C16_transparent_partial; auto).
  assert (AN : forall q t, Rabs (t - T) < d -> answer sps hist q t i = q_row q a t).
  { intros q t Ht. destruct (Hd t Ht) as [K1 K2]. apply C16_transparent_partial; auto. intros [m [M1 [M2 E]]]. exact (K2 m M1 M2 E). }
  destruct (fit_derivs a T HT) as [F1 [F2 [F3 [F4 F5]]]].
  rewrite !AT. cbn [q_row]. rewrite !Rmult_1_l.
  split; [|split; [|split; [|split]]].
  - apply (dl_local _ (fun t => t * H0_row a t)); [exists d; intros t Ht; rewrite AN by auto; reflexivity|]. apply is_derive_Reals; auto.
  - apply (dl_local _ (S0_row a)); [exists d; intros t Ht; rewrite AN by auto; reflexivity|]. apply is_derive_Reals; auto.
  - intros v. rewrite !AT. cbn [q_row]. split; [|ring].
    apply (dl_local _ (H0_row a)); [exists d; intros t Ht; rewrite AN by auto; reflexivity|]. apply is_derive_Reals; auto.
  - intros v. rewrite !AT. cbn [q_row]. split; [|ring].
    apply (dl_local _ (S0_row a)); [exists d; intros t Ht; rewrite AN by auto; reflexivity|]. apply is_derive_Reals; auto.
  - intros v. rewrite !AT. cbn [q_row]. split; [|ring].
    apply (dl_local _ (Cp0_row a)); [exists d; intros t Ht; rewrite AN by auto; reflexivity|]. apply is_derive_Reals; auto.
Qed.
Lemma N2_wf : wf_species (spR N2_d).
Proof.
  unfold wf_species. replace (sp_ranges (spR N2_d)) with br by (symmetry; exact big_range_R). split; [simpl; lia|]. split; [reflexivity|]. split.
  - intros i j [H1 H2]. unfold br in *. cbn [List.length] in H2. do 4 (destruct i as [|i]; [do 4 (destruct j as [|j]; [cbn [nth]; try lia; lra|]); lia|]). lia.
  - intros r Hr. cbn [spR N2_d d_coeffs sp_coeffs map] in Hr. inlist Hr; simpl; lia.
Qed.
Example C15_example : let sps := [spR N2_d] in (forall s, In s sps -> wf_species s) /\ (0 < List.length sps)%nat /\ 0 < 1500 /\ ~ breakpoint (nth 0 sps sp0) 1500.
Proof.
  cbv zeta. split; [|split; [simpl; lia|split; [lra|]]].
  - intros s [<-|[]]. exact N2_wf.
  - intros [k [H1 [H2 H3]]]. cbn [nth] in *. replace (sp_ranges (spR N2_d)) with br in * by (symmetry; exact big_range_R). unfold br in *. cbn [List.length] in H2.
    destruct k as [|[|[|k]]]; try lia; cbn [nth] in H3; lra.
Qed.
(* the hypotheses of C13/C14 are met by dry air-like mixtures of the shipped janaf data *)
Definition mk_ok (sp : spec_data) (d : dict R) : bool := match mk_properties sp (Some d) with Ok _ => true | Err _ => false end.
Example C13_example : let d := [("O", 1); ("N", 4)] in
  (exists p, mk_properties (specR janaf_dec) (Some d) = Ok p /\ p_elements p = ["N"; "O"] /\ (2 < List.length (p_products p))%nat) /\ dwf d /\
  (forall e, In e (dkeys d) -> 0 < weight (specR janaf_dec) e) /\
  (forall e, In e (dkeys d) -> 0 <= dgetd d e 0) /\ (exists e, In e (dkeys d) /\ 0 < dgetd d e 0) /\
  (forall e, In e (dkeys d) -> known (specR janaf_dec) e).
Proof.
  cbv zeta. split; [|split; [|split; [|split; [|split]]]].
  - assert (E : mk_ok (specR janaf_dec) [("O", 1); ("N", 4)] = true) by (cbv -[R IZR Rmult powerRZ Rdiv Rplus R0 R1]; reflexivity).
    unfold mk_ok in E. destruct (mk_properties _ _) as [p|] eqn:Q; [|discriminate]. exists p. split; auto.
    unfold mk_properties in Q. cbv zeta in Q. destruct (forallb _ _); [|discriminate]. destruct (get_all _ _); [|discriminate].
    injection Q as <-. cbn [p_elements p_products]. split; [reflexivity|].
    assert (L : (7 = List.length (map fst (filter (fun np => formable (sorted (dkeys [("O", 1); ("N", 4)])) (snd np)) (products (specR janaf_dec)))))%nat)
      by (cbv -[R IZR Rmult powerRZ Rdiv Rplus R0 R1]; reflexivity).
    apply (Nat.lt_le_trans _ 7); [lia|apply Nat.eq_le_incl; exact L].
  - unfold dwf. simpl. repeat constructor; simpl; intuition discriminate.
  - assert (D : forall z n, (0 < z)%Z -> 0 < dR (z, n)).
    { intros z n Hz. unfold dR. cbn [fst snd]. apply Rmult_lt_0_compat; [apply IZR_lt; auto|apply powerRZ_lt; lra]. }
    intros e [<-|[<-|[]]]; [change (0 < dR (159994, -4)%Z)|change (0 < dR (1400674, -5)%Z)]; apply D; lia.
  - intros e [<-|[<-|[]]]; [change (0 <= 1)|change (0 <= 4)]; lra.
  - exists "O". split; [simpl; auto|]. change (0 < 1); lra.
  - intros e He. apply known_iff. revert e He. apply Forall_forall. repeat constructor; cbv -[R IZR Rmult powerRZ]; reflexivity.
Qed.
