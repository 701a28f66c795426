From Coq Require Import Permutation.
From Verif Require Import Lib_R Lib_Py Spec_Mix Model_ThermoAdd Proofs_Species.
Open Scope string_scope. Open Scope list_scope. Open Scope R_scope.

Lemma lsum_nth (f : string -> R) l : lsum (fun j => f (nth j l "")) (seq 0 (List.length l)) = lsum f l.
Proof.
  induction l as [|x r IH]; [reflexivity|]. cbn [List.length seq lsum nth]. f_equal. rewrite <- seq_shift, lsum_map. exact IH.
Qed.
Lemma index_in x l : In x l -> (index_of x l < List.length l)%nat /\ nth (index_of x l) l "" = x.
Proof.
  induction l as [|y r IH]; simpl; [tauto|]. intros H. destruct (String.eqb x y) eqn:E.
  - apply eqb_iff in E. subst. split; [lia|auto].
  - apply eqb_neq' in E. destruct H as [<-|H]; [congruence|]. destruct (IH H). split; [lia|auto].
Qed.
Lemma index_nth l j x : NoDup l -> (j < List.length l)%nat -> In x l -> (index_of x l = j <-> nth j l "" = x).
Proof.
  intros N Hj Hx. destruct (index_in x l Hx) as [H1 H2]. split.
  - intros <-. auto.
  - intros E. apply (proj1 (NoDup_nth l "") N); auto. congruence.
Qed.
Lemma apply_map_amount mixed els v j : NoDup mixed -> (forall x, In x els -> In x mixed) -> (j < List.length mixed)%nat ->
  apply_map mixed els v j = amount els v (nth j mixed "").
Proof.
  intros N S Hj. unfold apply_map, amount. apply lsum_ext. intros i Hi. apply in_seq in Hi. unfold idx_map.
  assert (Hx : In (nth i els "") mixed) by (apply S, nth_In; lia).
  destruct (string_dec (nth i els "") (nth j mixed "")) as [E|E].
  - replace (Nat.eqb (index_of (nth i els "") mixed) j) with true; [ring|]. symmetry. apply Nat.eqb_eq. apply index_nth; auto.
  - replace (Nat.eqb (index_of (nth i els "") mixed) j) with false; [ring|]. symmetry. apply Nat.eqb_neq. intros K. apply E.
    symmetry. apply index_nth; auto.
Qed.
(* summing amount * g over a list that covers all the elements counts every entry once *)
Lemma amount_sum g mixed els v : NoDup mixed -> (forall x, In x els -> In x mixed) ->
  lsum (fun m => amount els v m * g m) mixed = mass g els v.
Proof.
  intros N S. unfold amount, mass.
  rewrite (lsum_ext _ (fun m => lsum (fun i => (if string_dec (nth i els "") m then v i else 0) * g m) (seq 0 (List.length els)))).
  2:{ intros m _. rewrite <- lsum_scal_r. reflexivity. }
  rewrite lsum_swap. apply lsum_ext. intros i Hi. apply in_seq in Hi.
  rewrite (lsum_single _ mixed (nth i els "")); auto.
  - destruct (string_dec _ _); [reflexivity|congruence].
  - apply S, nth_In. lia.
  - intros b _ Hb. destruct (string_dec _ _); [congruence|ring].
Qed.
Lemma amount_scale els v (c : string -> R) x : amount els (fun i => v i * c (nth i els "")) x = amount els v x * c x.
Proof.
  unfold amount. rewrite <- lsum_scal_r. apply lsum_ext. intros i _. destruct (string_dec _ _) as [->|]; ring.
Qed.
Lemma amount_ext els v v' x : (forall i, (i < List.length els)%nat -> v i = v' i) -> amount els v x = amount els v' x.
Proof. intros H. apply lsum_ext. intros i Hi. apply in_seq in Hi. rewrite H by lia. reflexivity. Qed.
Lemma mass_ext w els v v' : (forall i, (i < List.length els)%nat -> v i = v' i) -> mass w els v = mass w els v'.
Proof. intros H. apply lsum_ext. intros i Hi. apply in_seq in Hi. rewrite H by lia. reflexivity. Qed.
Lemma fraction_sum w mixed els v : NoDup mixed -> (forall x, In x els -> In x mixed) -> mass w els v <> 0 ->
  lsum (mass_fraction w els v) mixed = 1.
Proof.
  intros N S M. unfold mass_fraction. rewrite (lsum_div (mass w els v) (fun m => amount els v m * w m)), amount_sum; auto. field. auto.
Qed.
Lemma dgetd_amount (d : dict R) x : dwf d -> dgetd d x 0 = amount (dkeys d) (fun i => nth i (dvals d) 0) x.
Proof.
  unfold dgetd, amount, dkeys, dvals, dwf. induction d as [|[k v] r IH]; [reflexivity|]. intros W. inversion W; subst.
  cbn [dget map fst snd List.length seq lsum nth]. rewrite <- seq_shift, lsum_map. cbn [nth]. specialize (IH H2).
  destruct (String.eqb x k) eqn:E.
  - apply eqb_iff in E. subst. destruct (string_dec k k); [|congruence].
    rewrite lsum_0; [ring|]. intros i Hi. apply in_seq in Hi. destruct (string_dec _ _) as [E|]; auto. exfalso. apply H1.
    rewrite <- E. apply nth_In. unfold dkeys. lia.
  - apply eqb_neq' in E. destruct (string_dec k x); [congruence|]. rewrite IH. ring.
Qed.
Lemma nodupb_iff l : nodupb l = true -> NoDup l.
Proof.
  induction l as [|x r IH]; simpl; [constructor|]. intros H. apply andb_prop in H. destruct H as [H1 H2]. constructor; auto.
  apply str_in_false. apply negb_true_iff; auto.
Qed.

(* port data *)
Definition inflow_or_air (o : option (dict R)) : dict R := match o with None => CEA_AIR_COMPOSITION | Some d => d end.
Lemma add_reactants_spec sp l m m' : add_reactants sp l m = Ok m' ->
  (forall r, In r l -> exists d, dget (reactants sp) r = Some d) /\
  (forall x, In x (dkeys m') <-> In x (dkeys m) \/ exists r d, In r l /\ dget (reactants sp) r = Some d /\ In x (dkeys d)) /\
  (dwf m -> dwf m').
Proof.
  revert m. induction l as [|r l IH]; simpl; intros m.
  - injection 1 as <-. repeat split; auto; try tauto. intros [H|[r [d [[] _]]]]; auto.
  - destruct (dget (reactants sp) r) as [d|] eqn:E; [|discriminate]. intros H. destruct (IH _ H) as [A [B C]]. split; [|split].
    + intros r' [<-|Hr]; eauto.
    + intros x. rewrite B, dupdate_keys. split.
      * intros [[H1|H1]|[r' [d' [H1 [H2 H3]]]]]; auto; right; [exists r, d|exists r', d']; auto.
      * intros [H1|[r' [d' [[<-|H1] [H2 H3]]]]]; auto; [left; right; congruence|right; exists r', d'; auto].
    + intros W. apply C, dwf_dupdate; auto.
Qed.
Lemma add_reactants_ok sp l m : (forall r, In r l -> dget (reactants sp) r <> None) -> exists m', add_reactants sp l m = Ok m'.
Proof.
  revert m. induction l as [|r l IH]; simpl; intros m H; [eauto|]. destruct (dget (reactants sp) r) eqn:E; [apply IH; auto|].
  exfalso. apply (H r); auto.
Qed.
Lemma fold_dupdate_spec (l : list (dict R)) (m : dict R) :
  (forall x, In x (dkeys (fold_left dupdate l m)) <-> In x (dkeys m) \/ exists d, In d l /\ In x (dkeys d)) /\ (dwf m -> dwf (fold_left dupdate l m)).
Proof.
  revert m. induction l as [|d l IH]; simpl; intros m.
  - split; auto. intros x. split; auto. intros [H|[d [[] _]]]; auto.
  - destruct (IH (dupdate m d)) as [B C]. split.
    + intros x. rewrite B, dupdate_keys. split.
      * intros [[H1|H1]|[d' [H1 H2]]]; auto; right; eauto.
      * intros [H1|[d' [[<-|H1] H2]]]; auto. right; eauto.
    + intros W. apply C, dwf_dupdate; auto.
Qed.
Lemma mk_elems sp d p : mk_properties sp (Some d) = Ok p -> p_elements p = sorted (dkeys d) /\
  List.length (p_wts p) = List.length (p_elements p) /\
  (forall i, (i < List.length (p_elements p))%nat -> nth i (p_wts p) 0 = dgetd (element_wts sp) (nth i (p_elements p) "") 0).
Proof.
  unfold mk_properties. cbv zeta. destruct (forallb _ _); [|discriminate].
  destruct (get_all _ _) as [wts|] eqn:G; [|discriminate]. injection 1 as <-. cbn [p_wts p_elements].
  destruct (get_all_spec _ _ _ G) as [L N]. repeat split; auto. intros i Hi.
  assert (E : nth_error (sorted (dkeys d)) i = Some (nth i (sorted (dkeys d)) "")) by (apply nth_error_nth'; auto).
  assert (K := N _ _ E). unfold dgetd. rewrite <- K.
  assert (Hi' : (i < List.length wts)%nat) by lia. rewrite (nth_error_nth' wts 0 Hi'). reflexivity.
Qed.

(* fuel *)
Section Fuel.
  Context (sp : spec_data). Let w := fun x => dgetd (element_wts sp) x 0.
  Lemma fuel_nth mixed d j : NoDup mixed -> dwf d -> (forall x, In x (dkeys d) -> In x mixed) -> (j < List.length mixed)%nat ->
    wt (fuel_1kg sp mixed d) j = dict_fraction w d (nth j mixed "").
  Proof.
    intros N W S Hj. unfold wt, fuel_1kg. cbv zeta.
    set (a := map (fun e => dgetd d e 0 * dgetd (element_wts sp) e 0) mixed).
    rewrite (nth_indep _ 0 (0 / rsum a)) by (rewrite map_length; unfold a; rewrite map_length; auto).
    rewrite (map_nth (fun x => x / rsum a) a 0).
    assert (A : nth j a 0 = amount (dkeys d) (fun i => nth i (dvals d) 0) (nth j mixed "") * w (nth j mixed "")).
    { unfold a. rewrite (nth_indep _ 0 (dgetd d "" 0 * dgetd (element_wts sp) "" 0)) by (rewrite map_length; auto).
      rewrite (map_nth (fun e => dgetd d e 0 * dgetd (element_wts sp) e 0) mixed ""). rewrite dgetd_amount by auto. reflexivity. }
    assert (B : rsum a = dict_mass w d).
    { unfold a. rewrite rsum_lsum, lsum_map. unfold dict_mass. rewrite <- (amount_sum w mixed); auto. apply lsum_ext. intros m _.
      rewrite dgetd_amount by auto. reflexivity. }
    rewrite A, B. reflexivity.
  Qed.
End Fuel.

(* the dictionary of mixed flows *)
Lemma setup_flows_spec sp l acc fl : setup_flows sp l acc = Ok fl -> NoDup (map fst l) ->
  (forall n, ~ In n (map fst l) -> dget fl n = dget acc n) /\
  (forall n d, In (n, d) l -> exists p, mk_properties sp (Some d) = Ok p /\ dget fl n = Some (p_elements p, p_wts p)).
Proof.
  revert acc. induction l as [|[n d] l IH]; cbn [setup_flows map fst In]; intros acc.
  - injection 1 as <-. intros _. split; auto. intros n d [].
  - destruct (mk_properties sp (Some d)) as [p|] eqn:E; [|discriminate]. intros H N. inversion N; subst.
    destruct (IH _ H H3) as [A B]. split.
    + intros n' Hn. rewrite A by tauto. apply dget_dset_other. intros ->. apply Hn. auto.
    + intros n' d' [K|K]; [|eauto]. injection K as <- <-. exists p. split; auto. rewrite A by auto. apply dget_dset_same.
Qed.
Lemma all_some_spec {A C} (f : A -> option C) l : all_some f l = true -> forall x, In x l -> exists c, f x = Some c.
Proof.
  induction l as [|x r IH]; simpl; [tauto|]. destruct (f x) eqn:E; [|discriminate]. intros H y [<-|Hy]; eauto.
Qed.
Lemma map_fst_combine {A} (l : list string) (m : list A) : (forall x, In x l -> In x (map fst (combine l m))) -> NoDup l -> map fst (combine l m) = l.
Proof.
  revert m. induction l as [|x r IH]; intros [|y t] H N; simpl; auto.
  - exfalso. destruct (H x); simpl; auto.
  - f_equal. inversion N; subst. apply IH; auto. intros z Hz. destruct (H z) as [E|E]; simpl; auto. subst. contradiction.
Qed.
Lemma nodup_map_fst_combine {A} (l : list string) (m : list A) : NoDup l -> NoDup (map fst (combine l m)).
Proof.
  intros N. revert m. induction N as [|x r H N IH]; intros [|y t]; simpl; try constructor; auto.
  intros K. apply H. apply in_map_iff in K. destruct K as [[a b] [<- K]]. eapply in_combine_l; eauto.
Qed.

(* reading the outputs *)
Lemma upd_vec_other e nm n v x : (forall j, x <> I nm j) -> upd_vec e nm n v x = e x.
Proof.
  intros H. unfold upd_vec. apply (fold_skip (fun (e : env) j => upd e (I nm j) (v j)) (fun e : env => e x)). intros j e' _. rewrite upd_neq; auto.
Qed.
Lemma upd_vec_hit e nm n v j : (j < n)%nat -> upd_vec e nm n v (I nm j) = v j.
Proof.
  intros H. unfold upd_vec. rewrite <- fold_left_rev_right.
  assert (K : In j (rev (seq 0 n))) by (rewrite <- in_rev; apply in_seq; lia).
  induction (rev (seq 0 n)) as [|k l IH]; [destruct K|]. cbn [fold_right]. destruct (Nat.eq_dec k j) as [->|N].
  - apply upd_eq.
  - rewrite upd_neq by congruence. apply IH. destruct K; auto. congruence.
Qed.

Lemma amount_hit els v j : NoDup els -> (j < List.length els)%nat -> amount els v (nth j els "") = v j.
Proof.
  intros N Hj. unfold amount. rewrite (lsum_single _ _ j).
  - destruct (string_dec _ _); congruence.
  - apply seq_NoDup.
  - apply in_seq. lia.
  - intros b Hb Hne. apply in_seq in Hb. destruct (string_dec _ _) as [E|]; auto. exfalso. apply Hne.
    apply (proj1 (NoDup_nth els "") N); auto; lia.
Qed.
Lemma amount_miss els v x : ~ In x els -> amount els v x = 0.
Proof.
  intros H. unfold amount. apply lsum_0. intros i Hi. apply in_seq in Hi. destruct (string_dec _ _) as [E|]; auto. exfalso. apply H.
  rewrite <- E. apply nth_In. lia.
Qed.

Section Mix.
  Context (a : cea_adder) (w : string -> R).
  Hypothesis (ND : NoDup (ad_mixed a)) (SUB : forall x, In x (ad_inflow a) -> In x (ad_mixed a)).
  Hypothesis (WT : forall j, (j < List.length (ad_mixed a))%nat -> wt (ad_wts a) j = w (nth j (ad_mixed a) "")).
  Hypothesis (WNZ : forall x, In x (ad_mixed a) -> w x <> 0).
  Let n := List.length (ad_mixed a).
  Let el := fun j => nth j (ad_mixed a) "".

  Lemma start_b0 e old j : (j < n)%nat ->
    c_b0 (cea_start a e old) j = e (V "Fl_I:stat:W") * mass_fraction w (ad_inflow a) (fun i => e (I "Fl_I:tot:composition" i)) (el j).
  Proof.
    intros Hj. unfold cea_start. cbv zeta. cbn [c_b0]. rewrite apply_map_amount, WT by auto.
    set (v := fun i : nat => e (I "Fl_I:tot:composition" i)).
    assert (S : vsum (List.length (ad_mixed a)) (fun j0 => apply_map (ad_mixed a) (ad_inflow a) v j0 * wt (ad_wts a) j0) = mass w (ad_inflow a) v).
    { unfold vsum. rewrite <- (amount_sum w (ad_mixed a)) by auto. rewrite <- (lsum_nth (fun m => amount (ad_inflow a) v m * w m)).
      apply lsum_ext. intros i Hi. apply in_seq in Hi. rewrite apply_map_amount, WT by (auto; lia). reflexivity. }
    rewrite S. unfold mass_fraction. fold (el j). unfold Rdiv. ring.
  Qed.
  (* the end of compute, for any mixture whose element masses are given by G *)
  Lemma finish (c : cst) (G : string -> R) :
    (forall j, (j < n)%nat -> c_b0 c j = G (el j)) -> lsum G (ad_mixed a) = c_W c -> c_W c <> 0 -> (forall x, ~ In x (ad_mixed a) -> G x = 0) ->
    let out := upd (upd (upd_vec (c_out c) "composition_out" n (fun j => c_b0 c j / vsum n (c_b0 c) / wt (ad_wts a) j)) (V "mass_avg_h") (c_h c / c_W c)) (V "Wout") (c_W c) in
    let b := fun j => out (I "composition_out" j) in
    mass w (ad_mixed a) b = 1 /\ forall x, out (V "Wout") * mass_fraction w (ad_mixed a) b x = G x.
  Proof.
    intros HG HS HW H0. cbv zeta.
    set (out := upd (upd _ _ _) _ _). set (b := fun j => out (I "composition_out" j)).
    assert (VS : vsum n (c_b0 c) = c_W c).
    { unfold vsum. rewrite <- HS, <- (lsum_nth G). apply lsum_ext. intros j Hj. apply in_seq in Hj. apply HG. lia. }
    assert (BJ : forall j, (j < n)%nat -> b j * w (el j) = G (el j) / c_W c).
    { intros j Hj. unfold b, out. rewrite !upd_neq by discriminate. rewrite upd_vec_hit by auto. rewrite VS, HG, WT by auto. fold (el j).
      field. split; auto. apply WNZ. unfold el. apply nth_In; auto. }
    assert (MS : mass w (ad_mixed a) b = 1).
    { unfold mass. rewrite (lsum_ext _ (fun j => G (el j) / c_W c)).
      - rewrite lsum_div. unfold el. rewrite lsum_nth, HS. field. auto.
      - intros j Hj. apply in_seq in Hj. apply BJ. unfold n. lia. }
    split; auto. intros x. unfold mass_fraction. rewrite MS. replace (out (V "Wout")) with (c_W c) by (unfold out; rewrite upd_eq; auto).
    destruct (in_dec string_dec x (ad_mixed a)) as [Hx|Hx].
    - apply In_nth with (d := "") in Hx. destruct Hx as [j [Hj <-]]. rewrite amount_hit by auto. unfold Rdiv. rewrite Rinv_1, Rmult_1_r.
      change (c_W c * (b j * w (el j)) = G (el j)). rewrite BJ by auto. field. auto.
    - rewrite amount_miss, H0 by auto. unfold Rdiv. ring.
  Qed.

  (* reactants *)
  Section React.
    Context (rs : list (string * list R)) (fr : string -> string -> R).
    Hypothesis (R1 : ad_reactants a = Some rs).
    Hypothesis (R2 : forall r l, In (r, l) rs -> forall j, (j < n)%nat -> wt l j = fr r (el j)).
    Hypothesis (R3 : forall r l, In (r, l) rs -> lsum (fr r) (ad_mixed a) = 1).
    Hypothesis (R4 : forall r l x, In (r, l) rs -> ~ In x (ad_mixed a) -> fr r x = 0).
    Lemma in_comb (nr : string * (string * list R)) : In nr (combine (ad_names a) rs) -> In (snd nr) rs.
    Proof. destruct nr. intros H. apply in_combine_r in H. auto. Qed.
    Lemma react_mix e old :
      let c := cea_mix a e old in let W := e (V "Fl_I:stat:W") in let Wm := fun nr : string * (string * list R) => W * e (B (fst nr) "ratio") in
      let z := combine (ad_names a) rs in
      (forall j, (j < n)%nat -> c_b0 c j = W * mass_fraction w (ad_inflow a) (fun i => e (I "Fl_I:tot:composition" i)) (el j) + lsum (fun nr => Wm nr * fr (fst (snd nr)) (el j)) z) /\
      c_h c = e (V "Fl_I:tot:h") * W + lsum (fun nr => e (B (fst nr) "h") * Wm nr) z /\
      c_W c = W + lsum Wm z /\
      (forall nr, NoDup (ad_names a) -> In nr z -> c_out c (B (fst nr) "W") = Wm nr) /\
      (forall x, (forall nm, x <> B nm "W") -> c_out c x = old x).
    Proof.
      cbv zeta. unfold cea_mix. rewrite R1. split; [|split; [|split; [|split]]].
      - intros j Hj. rewrite (fold_acc (cea_react_step e) (fun c => c_b0 c j) _ _ (fun nr => e (V "Fl_I:stat:W") * e (B (fst nr) "ratio") * fr (fst (snd nr)) (el j))).
        + rewrite start_b0 by auto. reflexivity.
        + intros [nm [r l]] c' Hb. unfold cea_react_step. cbv zeta. cbn [c_b0 fst snd]. apply in_comb in Hb. rewrite (R2 _ _ Hb) by auto. ring.
      - rewrite (fold_acc (cea_react_step e) c_h _ _ (fun nr => e (B (fst nr) "h") * (e (V "Fl_I:stat:W") * e (B (fst nr) "ratio")))); auto.
      - rewrite (fold_acc (cea_react_step e) c_W _ _ (fun nr => e (V "Fl_I:stat:W") * e (B (fst nr) "ratio"))); auto.
      - intros nr N Hnr.
        assert (K : forall z c0, NoDup (map fst z) -> In nr z -> c_out (fold_left (cea_react_step e) z c0) (B (fst nr) "W") = e (V "Fl_I:stat:W") * e (B (fst nr) "ratio")).
        { induction z as [|y z IH]; intros c0 N' H'; [destruct H'|]. inversion N'; subst. cbn [fold_left]. destruct H' as [->|H']; auto.
          rewrite (fold_skip (cea_react_step e) (fun c => c_out c (B (fst nr) "W"))).
          - unfold cea_react_step. cbv zeta. cbn [c_out]. apply upd_eq.
          - intros b c' Hb. unfold cea_react_step. cbv zeta. cbn [c_out]. apply upd_neq. intros E. injection E as E. apply H1. rewrite <- E. apply in_map; auto. }
        apply K; auto. apply nodup_map_fst_combine; auto.
      - intros x Hx. rewrite (fold_skip (cea_react_step e) (fun c => c_out c x)).
        + reflexivity.
        + intros b c' _. unfold cea_react_step. cbv zeta. cbn [c_out]. apply upd_neq. auto.
    Qed.
  End React.
  (* flows: nd pairs each mix name with the elements of its stream *)
  Section Flow.
    Context (nd : string -> list string).
    Hypothesis (F1 : ad_reactants a = None).
    Hypothesis (F2 : forall nm, In nm (ad_names a) -> exists wts, dget (ad_flows a) nm = Some (nd nm, wts) /\
       (forall i, (i < List.length (nd nm))%nat -> wt wts i = w (nth i (nd nm) ""))).
    Hypothesis (F3 : forall nm x, In nm (ad_names a) -> In x (nd nm) -> In x (ad_mixed a)).
    Let cmp (e : env) (nm : string) : nat -> R := fun i => e (I (nm ++ ":composition") i).
    Lemma flow_step_b0 e c nm j : In nm (ad_names a) -> (j < n)%nat ->
      c_b0 (cea_flow_step a e c nm) j = c_b0 c j + e (B nm "W") * mass_fraction w (nd nm) (cmp e nm) (el j).
    Proof.
      intros Hn Hj. destruct (F2 nm Hn) as [wts [E1 E2]]. unfold cea_flow_step. cbv zeta. rewrite E1. cbn [c_b0]. f_equal.
      rewrite apply_map_amount; auto. 2:{ intros x. apply F3; auto. }
      assert (S : vsum (List.length (nd nm)) (fun i => e (I (nm ++ ":composition") i) * wt wts i) = mass w (nd nm) (cmp e nm)).
      { unfold vsum, mass. apply lsum_ext. intros i Hi. apply in_seq in Hi. rewrite E2 by lia. reflexivity. }
      rewrite S. unfold mass_fraction.
      rewrite (amount_ext _ _ (fun i => cmp e nm i * (fun x => w x / mass w (nd nm) (cmp e nm) * e (B nm "W")) (nth i (nd nm) ""))).
      - rewrite (amount_scale (nd nm) (cmp e nm) (fun x => w x / mass w (nd nm) (cmp e nm) * e (B nm "W"))). unfold el. unfold Rdiv. ring.
      - intros i Hi. rewrite E2 by auto. unfold cmp, Rdiv. ring.
    Qed.
    Lemma flow_step_rest e c nm : In nm (ad_names a) ->
      c_h (cea_flow_step a e c nm) = c_h c + e (B nm "h") * e (B nm "W") /\ c_W (cea_flow_step a e c nm) = c_W c + e (B nm "W") /\ c_out (cea_flow_step a e c nm) = c_out c.
    Proof. intros Hn. destruct (F2 nm Hn) as [wts [E1 E2]]. unfold cea_flow_step. cbv zeta. rewrite E1. auto. Qed.
    Lemma flow_mix e old :
      let c := cea_mix a e old in let W := e (V "Fl_I:stat:W") in
      (forall j, (j < n)%nat -> c_b0 c j = W * mass_fraction w (ad_inflow a) (fun i => e (I "Fl_I:tot:composition" i)) (el j) +
          lsum (fun nm => e (B nm "W") * mass_fraction w (nd nm) (cmp e nm) (el j)) (ad_names a)) /\
      c_h c = e (V "Fl_I:tot:h") * W + lsum (fun nm => e (B nm "h") * e (B nm "W")) (ad_names a) /\
      c_W c = W + lsum (fun nm => e (B nm "W")) (ad_names a).
    Proof.
      cbv zeta. unfold cea_mix. rewrite F1. split; [|split].
      - intros j Hj. rewrite (fold_acc (cea_flow_step a e) (fun c => c_b0 c j) _ _ (fun nm => e (B nm "W") * mass_fraction w (nd nm) (cmp e nm) (el j))).
        + rewrite start_b0 by auto. reflexivity.
        + intros nm c' Hb. apply flow_step_b0; auto.
      - rewrite (fold_acc (cea_flow_step a e) c_h _ _ (fun nm => e (B nm "h") * e (B nm "W"))); auto. intros nm c' Hb. apply flow_step_rest; auto.
      - rewrite (fold_acc (cea_flow_step a e) c_W _ _ (fun nm => e (B nm "W"))); auto. intros nm c' Hb. apply flow_step_rest; auto.
    Qed.
  End Flow.
End Mix.
