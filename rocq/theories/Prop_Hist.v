(* C47: what the evaluation history of a component can and cannot change. *)
From Verif Require Import Lib_R Lib_Loop Model_Hist Proofs_Turbo Prop_Turbo Proofs_Equil Proofs_Props Prop_Equil.
From Coq Require Import Lra Lia FunctionalExtensionality.
Open Scope string_scope. Open Scope list_scope. Open Scope R_scope.

Definition lins (l : list env) : list event := map Lin l.
Definition evaluated (l : list event) : Prop := exists e, In (Run e) l.

Lemma play_app c l1 : forall l2 s J, play c (l1 ++ l2) s J = match play c l1 s J with None => None | Some (s', J') => play c l2 s' J' end.
Proof.
  induction l1 as [|[e|e] r IH]; intros l2 s J; cbn [app play]; [reflexivity|apply IH|].
  destruct (i_lin c s e J) as [J'|]; [apply IH|reflexivity].
Qed.

(* the last evaluation in a list of calls *)
Fixpoint last_run (l : list event) : option env :=
  match l with [] => None | Run e :: r => match last_run r with None => Some e | o => o end | Lin _ :: r => last_run r end.

(* ---- instances whose only attributes are written by every evaluation ---- *)
(* at : what an evaluation at e leaves on the instance *)
Record simple (c : instance) (T : Type) (at_ : env -> T) (lin : T -> env -> jac -> jac) (cast : attrs c -> option T) : Prop := {
  sm_fresh : cast (fresh c) = None;
  sm_run : forall s e old, cast (snd (i_run c s e old)) = Some (at_ e);
  sm_val : forall s s' e old, fst (i_run c s e old) = fst (i_run c s' e old);
  sm_lin : forall s e J, i_lin c s e J = match cast s with None => None | Some a => Some (lin a e J) end;
  sm_keep : forall o i, (forall a e J, lin a e J o i = J o i) \/ (forall a e J J', lin a e J o i = lin a e J' o i) }.

Section SIMPLE.
Variables (c : instance) (T : Type) (at_ : env -> T) (lin : T -> env -> jac -> jac) (cast : attrs c -> option T).
Hypothesis (S : simple c T at_ lin cast).
Lemma simple_state l : forall s J s' J', play c l s J = Some (s', J') ->
  cast s' = match last_run l with None => cast s | Some e => Some (at_ e) end.
Proof.
  induction l as [|[e|e] r IH]; intros s J s' J'; cbn [play last_run].
  - intros Q. injection Q as <- <-. reflexivity.
  - intros Q. rewrite (IH _ _ _ _ Q). destruct (last_run r); [reflexivity|apply (sm_run _ _ _ _ _ S)].
  - destruct (i_lin c s e J); [apply IH|discriminate].
Qed.
Lemma simple_keep o i : (forall a e J, lin a e J o i = J o i) -> forall l s J s' J', play c l s J = Some (s', J') -> J' o i = J o i.
Proof.
  intros K. induction l as [|[e|e] r IH]; intros s J s' J'; cbn [play].
  - intros Q. injection Q as <- <-. reflexivity.
  - apply IH.
  - rewrite (sm_lin _ _ _ _ _ S). destruct (cast s) as [a|]; [|discriminate]. intros Q. rewrite (IH _ _ _ _ Q). apply K.
Qed.
(* a call raises exactly when a linearisation precedes every evaluation *)
Lemma simple_none l : played c l = None <-> exists e r l', l = l' ++ Lin e :: r /\ ~ evaluated l'.
Proof.
  assert (Z : forall l s J, cast s <> None -> play c l s J <> None).
  { clear l. induction l as [|[e|e] r IH]; intros s J Hs; cbn [play]; [discriminate|apply IH; rewrite (sm_run _ _ _ _ _ S); discriminate|].
    rewrite (sm_lin _ _ _ _ _ S). destruct (cast s) eqn:E; [|congruence]. apply IH. rewrite E. discriminate. }
  unfold played. destruct l as [|[e|e] r]; cbn [play].
  - split; [discriminate|]. intros (e & r & l' & Q & _). destruct l'; discriminate.
  - split.
    + intros Q. exfalso. eapply Z; [|exact Q]. rewrite (sm_run _ _ _ _ _ S). discriminate.
    + intros (e' & r' & l' & Q & N). destruct l' as [|x l']; [discriminate|]. injection Q as <- _. exfalso. apply N. exists e. left. reflexivity.
  - rewrite (sm_lin _ _ _ _ _ S), (sm_fresh _ _ _ _ _ S). split; [|reflexivity]. intros _. exists e, r, []. split; [reflexivity|]. intros (x & []).
Qed.
Lemma simple_values l e old v : values c l e old = Some v -> v = fst (i_run c (fresh c) e old).
Proof. unfold values. destruct (played c l) as [[s J]|]; [|discriminate]. intros Q. injection Q as <-. apply (sm_val _ _ _ _ _ S). Qed.
(* the entry held after linearising at e depends on nothing but e and the last evaluated point *)
Lemma simple_entry l e a J o i : last_run l = Some a -> jacobian c (l ++ [Lin e]) = Some J ->
  J o i = lin (at_ a) e (jinit (i_decls c)) o i.
Proof.
  intros La. unfold jacobian, played. rewrite play_app. destruct (play c l (fresh c) (jinit (i_decls c))) as [[s J0]|] eqn:E; [|discriminate].
  cbn [play]. rewrite (sm_lin _ _ _ _ _ S), (simple_state _ _ _ _ _ E), La. intros Q. injection Q as <-.
  destruct (sm_keep _ _ _ _ _ S o i) as [K|K]; [|apply K]. rewrite !K. exact (simple_keep _ _ K _ _ _ _ _ E).
Qed.
End SIMPLE.

Lemma cci_simple : simple i_corrected env cci_self cci_partials_self (fun s => s).
Proof.
  split; try reflexivity. intros o i. unfold cci_partials_self. cbv zeta.
  destruct (var_eq_dec o (V "Wc")) as [->|N1]; [|destruct (var_eq_dec o (V "Nc")) as [->|N2]].
  - destruct (var_eq_dec i (V "Tt")) as [->|]; [right; intros; vsimp; reflexivity|].
    destruct (var_eq_dec i (V "Pt")) as [->|]; [right; intros; vsimp; reflexivity|].
    destruct (var_eq_dec i (V "W_in")) as [->|]; [right; intros; vsimp; reflexivity|].
    left. intros. unfold jset. repeat (destruct (var_eq_dec _ _); try congruence; try discriminate).
  - destruct (var_eq_dec i (V "Tt")) as [->|]; [right; intros; vsimp; reflexivity|].
    destruct (var_eq_dec i (V "Nmech")) as [->|]; [right; intros; vsimp; reflexivity|].
    left. intros. unfold jset. repeat (destruct (var_eq_dec _ _); try congruence; try discriminate).
  - left. intros. unfold jset. repeat (destruct (var_eq_dec _ _); try congruence; try discriminate).
Qed.
Lemma rhs_simple g : simple (i_rhs g) (nat -> R) (fun e k => H0 g k (e (V "T"))) (rhs_partials_self g) (fun s => s).
Proof.
  split; try reflexivity. intros o i. unfold rhs_partials_self. destruct o as [s|s k|u s|s a b]; try (left; reflexivity).
  destruct (_ && _)%bool; [|left; reflexivity]. destruct i as [t|t j|u t|t a b]; try (left; reflexivity).
  - destruct (String.eqb t "T"); [right; reflexivity|left; reflexivity].
  - destruct (_ && _)%bool; [right; reflexivity|left; reflexivity].
Qed.

(* ---------- C47 ---------- *)
(* the corrected-flow component and the property right-hand sides: values never depend on the history ... *)
Theorem C47_values (g : gas) (l l' : list event) (e old v v' : env) :
  (values i_corrected l e old = Some v -> values i_corrected l' e old = Some v' -> v = v') /\
  (values (i_rhs g) l e old = Some v -> values (i_rhs g) l' e old = Some v' -> v = v').
Proof.
  split; intros A B; [rewrite (simple_values _ _ _ _ _ cci_simple _ _ _ _ A), (simple_values _ _ _ _ _ cci_simple _ _ _ _ B)
    |rewrite (simple_values _ _ _ _ _ (rhs_simple g) _ _ _ _ A), (simple_values _ _ _ _ _ (rhs_simple g) _ _ _ _ B)]; reflexivity.
Qed.
(* ... a call raises exactly when the first linearisation comes before the first evaluation ... *)
Theorem C47_raises (g : gas) (l : list event) :
  (played i_corrected l = None <-> exists e r l', l = l' ++ Lin e :: r /\ ~ evaluated l') /\
  (played (i_rhs g) l = None <-> exists e r l', l = l' ++ Lin e :: r /\ ~ evaluated l').
Proof. split; [apply (simple_none _ _ _ _ _ cci_simple)|apply (simple_none _ _ _ _ _ (rhs_simple g))]. Qed.
Lemma last_run_at l e more : last_run (l ++ Run e :: lins more) = Some e.
Proof.
  induction l as [|[x|x] r IH]; cbn [app last_run]; [|rewrite IH; reflexivity|exact IH].
  induction more as [|y m IHm]; cbn [lins map last_run] in *; [reflexivity|exact IHm].
Qed.
(* ... and the derivatives are exact after every history whose last evaluation was at the linearised point, whatever was evaluated or
   linearised before it, and whatever was linearised in between *)
Theorem C47_derivatives (g : gas) (l : list event) (e : env) (more : list env) (J : jac) (old : env) (o i : var) :
  (jacobian i_corrected (l ++ Run e :: lins more ++ [Lin e]) = Some J -> 0 < e (V "Tt") -> 0 < e (V "Pt") ->
     In o (outs c_corrected_inputs) -> In i (ins c_corrected_inputs) ->
     derivable_pt_lim (fun t => compute c_corrected_inputs (upd e i t) old o) (e i) (J o i)) /\
  (jacobian (i_rhs g) (l ++ Run e :: lins more ++ [Lin e]) = Some J -> smooth_at g (e (V "T")) ->
     In o (outs (props_rhs g)) -> In i (ins (props_rhs g)) ->
     derivable_pt_lim (fun t => compute (props_rhs g) (upd e i t) old o) (e i) (J o i)).
Proof.
  replace (l ++ Run e :: lins more ++ [Lin e]) with ((l ++ Run e :: lins more) ++ [Lin e]) by (rewrite <- app_assoc; reflexivity).
  split.
  - intros Q HT HP Ho Hi. rewrite (simple_entry _ _ _ _ _ cci_simple _ _ _ _ o i (last_run_at l e more) Q).
    exact (proj1 cci_ok [] e old o i (conj HT HP) Ho Hi).
  - intros Q Sm Ho Hi. rewrite (simple_entry _ _ _ _ _ (rhs_simple g) _ _ _ _ o i (last_run_at l e more) Q).
    exact (proj1 (C23_derivatives g) [] e old o i Sm Ho Hi).
Qed.

(* Linearised anywhere else, without evaluating there first: what comes out are the derivatives at another point. The corrected-flow
   component returns those at the last evaluated inputs with the current shaft speed ... *)
Theorem C47_stale (l : list event) (e a : env) (J : jac) (old : env) (o i : var) :
  last_run l = Some a -> jacobian i_corrected (l ++ [Lin e]) = Some J -> 0 < a (V "Tt") -> 0 < a (V "Pt") ->
  In o (outs c_corrected_inputs) -> In i (ins c_corrected_inputs) ->
  let p := upd a (V "Nmech") (e (V "Nmech")) in
  derivable_pt_lim (fun t => compute c_corrected_inputs (upd p i t) old o) (p i) (J o i).
Proof.
  intros La Q HT HP Ho Hi p. rewrite (simple_entry _ _ _ _ _ cci_simple _ _ _ _ o i La Q).
  assert (E : cci_partials_self (cci_self a) e (jinit (i_decls i_corrected)) o i = jac_after c_corrected_inputs [] p o i).
  { unfold jac_after. cbn [fold_left c_corrected_inputs partials decls i_decls i_corrected]. unfold cci_partials_self. cbv zeta.
    destruct (cci_self_eq a) as (A1 & A2 & A3). destruct (cci_self_eq p) as (B1 & B2 & B3). rewrite A1, A2, A3, B1, B2, B3.
    unfold p. rewrite !upd_neq by discriminate. rewrite upd_eq. reflexivity. }
  rewrite E. apply (proj1 cci_ok); auto.
Qed.
(* ... the property right-hand sides mix the two points: with respect to the mole numbers the derivatives are those at the last
   evaluated temperature, with respect to the temperature those at the current point *)
Theorem C47_stale_rhs (g : gas) (l : list event) (e a : env) (J : jac) (old : env) (i : nat) (k : nat) :
  last_run l = Some a -> jacobian (i_rhs g) (l ++ [Lin e]) = Some J -> (i <= ne g)%nat -> (k < np g)%nat ->
  (smooth_at g (a (V "T")) -> let p := upd e (V "T") (a (V "T")) in
     derivable_pt_lim (fun t => compute (props_rhs g) (upd p (I "n" k) t) old (I "rhs_T" i)) (p (I "n" k)) (J (I "rhs_T" i) (I "n" k))) /\
  (smooth_at g (e (V "T")) ->
     derivable_pt_lim (fun t => compute (props_rhs g) (upd e (V "T") t) old (I "rhs_T" i)) (e (V "T")) (J (I "rhs_T" i) (V "T"))).
Proof.
  intros La Q Hi Hk.
  assert (Ho : In (I "rhs_T" i) (outs (props_rhs g))) by (cbn [props_rhs outs]; apply in_or_app; left; apply in_map, in_seq; lia).
  assert (Hin : In (I "n" k) (ins (props_rhs g))) by (cbn [props_rhs ins]; rewrite !in_app_iff; right; left; apply in_map, in_seq; lia).
  assert (HT : In (V "T") (ins (props_rhs g))) by (left; reflexivity).
  split.
  - intros Sm p. rewrite (simple_entry _ _ _ _ _ (rhs_simple g) _ _ _ _ _ _ La Q).
    assert (E : rhs_partials_self g (fun k0 => H0 g k0 (a (V "T"))) e (jinit (i_decls (i_rhs g))) (I "rhs_T" i) (I "n" k) = jac_after (props_rhs g) [] p (I "rhs_T" i) (I "n" k)).
    { unfold jac_after. cbn [fold_left props_rhs partials]. unfold rhs_partials_self. cbn [String.eqb Ascii.eqb Bool.eqb].
      replace (Nat.leb i (ne g)) with true by (symmetry; apply Nat.leb_le; auto). replace (Nat.ltb k (np g)) with true by (symmetry; apply Nat.ltb_lt; auto).
      cbn [andb]. unfold p. rewrite upd_eq. reflexivity. }
    rewrite E. apply (proj1 (C23_derivatives g)); auto.
  - intros Sm. rewrite (simple_entry _ _ _ _ _ (rhs_simple g) _ _ _ _ _ _ La Q).
    assert (E : rhs_partials_self g (fun k0 => H0 g k0 (a (V "T"))) e (jinit (i_decls (i_rhs g))) (I "rhs_T" i) (V "T") = jac_after (props_rhs g) [] e (I "rhs_T" i) (V "T")).
    { unfold jac_after. cbn [fold_left props_rhs partials]. unfold rhs_partials_self. cbn [String.eqb Ascii.eqb Bool.eqb].
      replace (Nat.leb i (ne g)) with true by (symmetry; apply Nat.leb_le; auto). reflexivity. }
    rewrite E. apply (proj1 (C23_derivatives g)); auto.
Qed.
(* so without the evaluation the claim is false: dWc/dW is right only where sqrt(Tt)/Pt happens to be what it was *)
Theorem C47_stale_refuted (l : list event) (e a : env) (J : jac) (old : env) :
  last_run l = Some a -> jacobian i_corrected (l ++ [Lin e]) = Some J ->
  0 < a (V "Tt") -> 0 < a (V "Pt") -> 0 < e (V "Tt") -> 0 < e (V "Pt") ->
  (derivable_pt_lim (fun t => compute c_corrected_inputs (upd e (V "W_in") t) old (V "Wc")) (e (V "W_in")) (J (V "Wc") (V "W_in")) <->
   e (V "Tt") * a (V "Pt") ^ 2 = a (V "Tt") * e (V "Pt") ^ 2).
Proof.
  intros La Q HTa HPa HTe HPe. rewrite (simple_entry _ _ _ _ _ cci_simple _ _ _ _ (V "Wc") (V "W_in") La Q).
  assert (D := proj1 cci_ok [] e old (V "Wc") (V "W_in") (conj HTe HPe)). specialize (D ltac:(left; auto) ltac:(right; right; left; auto)).
  assert (Ee : forall x y, cci_partials_self (cci_self x) y (jinit (decls c_corrected_inputs)) (V "Wc") (V "W_in") = rpow (x (V "Tt") / T_STDeng) (1 / 2) / (x (V "Pt") / P_STDeng)).
  { intros x y. unfold cci_partials_self. cbv zeta. vsimp. destruct (cci_self_eq x) as (A1 & A2 & A3). rewrite A1, A3. reflexivity. }
  assert (St : 0 < T_STDeng /\ 0 < P_STDeng) by (unfold T_STDeng, P_STDeng; lra). destruct St as [S1 S2].
  assert (Rp : forall x, 0 < x -> 0 < rpow x (1 / 2) /\ rpow x (1 / 2) * rpow x (1 / 2) = x).
  { intros x Hx. unfold rpow. destruct (Req_EM_T x 0); [lra|]. split; [unfold Rpower; apply exp_pos|].
    rewrite <- Rpower_plus. replace (1 / 2 + 1 / 2) with 1 by lra. apply Rpower_1. auto. }
  unfold jac_after in D. cbn [fold_left c_corrected_inputs partials] in D. cbn [i_decls i_corrected]. rewrite Ee in *.
  assert (HA : 0 < a (V "Tt") / T_STDeng) by (apply Rdiv_lt_0_compat; auto). assert (HE : 0 < e (V "Tt") / T_STDeng) by (apply Rdiv_lt_0_compat; auto).
  destruct (Rp _ HA) as [PA QA]. destruct (Rp _ HE) as [PE QE]. set (ra := rpow (a (V "Tt") / T_STDeng) (1 / 2)) in *. set (re := rpow (e (V "Tt") / T_STDeng) (1 / 2)) in *.
  assert (TA : a (V "Tt") = ra * ra * T_STDeng) by (rewrite QA; field; lra). assert (TE : e (V "Tt") = re * re * T_STDeng) by (rewrite QE; field; lra).
  assert (K : ra / (a (V "Pt") / P_STDeng) = re / (e (V "Pt") / P_STDeng) <-> re * a (V "Pt") = ra * e (V "Pt")).
  { split; intros H.
    - apply (Rmult_eq_reg_r (P_STDeng / (a (V "Pt") * e (V "Pt")))); [|apply Rgt_not_eq, Rdiv_lt_0_compat; [auto|apply Rmult_lt_0_compat; auto]].
      transitivity (re / (e (V "Pt") / P_STDeng)); [field; lra|]. rewrite <- H. field. lra.
    - transitivity ((ra * e (V "Pt")) * (P_STDeng / (a (V "Pt") * e (V "Pt")))); [field; lra|]. rewrite <- H. field. lra. }
  split.
  - intros D'. pose proof (uniqueness_limite _ _ _ _ D' D) as Z. apply K in Z. rewrite TA, TE.
    transitivity ((re * a (V "Pt")) * (re * a (V "Pt")) * T_STDeng); [ring|]. rewrite Z. ring.
  - intros H. assert (Z : re * a (V "Pt") = ra * e (V "Pt")).
    { rewrite TA, TE in H. assert (H2 : (re * a (V "Pt")) * (re * a (V "Pt")) = (ra * e (V "Pt")) * (ra * e (V "Pt"))).
      { apply (Rmult_eq_reg_r T_STDeng); [|lra]. transitivity (re * re * T_STDeng * a (V "Pt") ^ 2); [ring|]. rewrite H. ring. }
      assert (0 < re * a (V "Pt")) by (apply Rmult_lt_0_compat; auto). assert (0 < ra * e (V "Pt")) by (apply Rmult_lt_0_compat; auto). nra. }
    apply K in Z. rewrite Z. exact D.
Qed.

(* ---- the equilibrium component ---- *)
(* the points evaluated *)
Fixpoint runs (l : list event) : list env := match l with [] => [] | Run e :: r => e :: runs r | Lin _ :: r => runs r end.
Lemma chem_state g l : forall s J s' J', play (i_chem_eq g) l s J = Some (s', J') -> s' = ce_applies g (runs l) s.
Proof.
  induction l as [|[e|e] r IH]; intros s J s' J'; cbn [play runs].
  - intros Q. injection Q as <- <-. reflexivity.
  - intros Q. rewrite (IH _ _ _ _ Q). reflexivity.
  - destruct (i_lin (i_chem_eq g) s e J); [apply IH|discriminate].
Qed.
(* The residual of every history is the residual of the equations, except that a species below 1e-10 may be dropped: its equation then
   reads 0 = 0. *)
Theorem C47_residuals (g : gas) (l : list event) (e old v : env) : values (i_chem_eq g) l e old = Some v ->
  let full := compute (chem_eq g false) e old in
  (forall o, In o (outs (chem_eq g false)) -> v o = full o \/ exists j, (j < np g)%nat /\ o = I "n" j /\ v o = 0 /\ e (I "n" j) <= / 10 ^ 10 + / 10 ^ 20) /\
  (none_traced g e -> v = full).
Proof.
  unfold values. destruct (played (i_chem_eq g) l) as [[s J]|] eqn:E; [|discriminate]. intros Q. set (full := compute (chem_eq g false) e old). injection Q as <-.
  assert (X : forall o, ce_resid g (ce_remove s) e old o = full o \/ exists j, (j < np g)%nat /\ o = I "n" j /\ ce_resid g (ce_remove s) e old o = 0 /\ e (I "n" j) <= / 10 ^ 10 + / 10 ^ 20).
  { intros o. unfold full. cbn [chem_eq compute]. unfold ce_resid. destruct o as [t|t k|u t|t a b]; auto.
    destruct (String.eqb_spec t "n") as [->|]; [|left; reflexivity]. destruct (Nat.ltb_spec k (np g)); [|left; reflexivity]. cbn [andb].
    unfold ce_resid_n. cbn [andb]. destruct (ce_remove s && is_trace e k)%bool eqn:T; [|left; reflexivity].
    right. exists k. split; [auto|]. split; [reflexivity|]. split; [reflexivity|]. apply Bool.andb_true_iff in T as [_ T]. unfold is_trace, MIN_CONC in T.
    destruct (Rle_dec _ _); [auto|discriminate]. }
  cbn [i_run i_chem_eq ce_apply fst]. split; [intros o _; apply X|].
  intros N. apply functional_extensionality. intros o. destruct (X o) as [Y|(j & Hj & -> & _ & L)]; [exact Y|]. exfalso. exact (Rlt_irrefl _ (Rlt_le_trans _ _ _ (N j Hj) L)).
Qed.
Lemma chem_mask g l s : s = ce_applies g l ce_init -> ce_trace s = None \/ exists a, In a l /\ ce_trace s = Some (is_trace a).
Proof.
  intros ->. induction l as [|a l IH] using rev_ind; [left; reflexivity|]. unfold ce_applies in *. rewrite fold_left_app. cbn [fold_left ce_apply snd ce_trace].
  set (s := fold_left _ l ce_init) in *. destruct (ce_remove s).
  - right. exists a. split; [apply in_or_app; right; left; auto|reflexivity].
  - destruct IH as [IH|(b & Hb & IH)]; [left; auto|right; exists b; split; [apply in_or_app; left; auto|auto]].
Qed.
Lemma ce_keep g o i : (forall r w m e J, ce_jac g r w m e J o i = J o i) \/ (forall r w m e J J', ce_jac g r w m e J o i = ce_jac g r w m e J' o i).
Proof.
  unfold ce_jac. destruct o as [so|so j|u so|so a b]; try (left; reflexivity).
  - destruct (String.eqb so "n_moles"); [|left; reflexivity]. destruct i as [t|t k|u t|t a b]; try (left; reflexivity). destruct (_ && _)%bool; [right; reflexivity|left; reflexivity].
  - destruct (String.eqb so "n" && _)%bool.
    + destruct i as [t|t k|u t|t a b]; try (left; reflexivity).
      * destruct (String.eqb t "P"); [right; reflexivity|]. destruct (String.eqb t "T"); [right; reflexivity|left; reflexivity].
      * destruct (String.eqb t "n" && _)%bool; [right; reflexivity|]. destruct (String.eqb t "pi" && _)%bool; [right; reflexivity|left; reflexivity].
    + destruct (String.eqb so "pi" && _)%bool; [|left; reflexivity]. destruct i as [t|t k|u t|t a b]; try (left; reflexivity).
      destruct (String.eqb t "n" && _)%bool; [right; reflexivity|]. destruct (String.eqb t "composition" && _)%bool; [right; reflexivity|left; reflexivity].
Qed.
Lemma chem_keep g o i : (forall r w m e J, ce_jac g r w m e J o i = J o i) -> forall l s J s' J', play (i_chem_eq g) l s J = Some (s', J') -> J' o i = J o i.
Proof.
  intros K. induction l as [|[e|e] r IH]; intros s J s' J'; cbn [play].
  - intros Q. injection Q as <- <-. reflexivity.
  - apply IH.
  - cbn [i_lin i_chem_eq]. unfold ce_linearize. destruct (ce_w s) as [w|]; [|discriminate].
    destruct (ce_remove s); [destruct (ce_trace s) as [m|]; [|discriminate]|]; intros Q; rewrite (IH _ _ _ _ Q); apply K.
Qed.
Lemma runs_app l l' : runs (l ++ l') = runs l ++ runs l'.
Proof. induction l as [|[e|e] r IH]; cbn [app runs]; [reflexivity|rewrite IH; reflexivity|exact IH]. Qed.
Lemma runs_lins more : runs (lins more) = [].
Proof. induction more; [reflexivity|assumption]. Qed.
(* Its derivatives are those of the equations (but for the entries C22 lists as never exact) after every history in which no
   evaluated point had a species below 1e-10. *)
Theorem C47_chem_derivatives (g : gas) (l : list event) (e : env) (more : list env) (J : jac) (old : env) (o i : var) :
  jacobian (i_chem_eq g) (l ++ Run e :: lins more ++ [Lin e]) = Some J ->
  (forall a, In (Run a) (l ++ [Run e]) -> none_traced g a) -> eq_dom g e ->
  In o (outs (chem_eq g false)) -> In i (ins (chem_eq g false)) -> ~ nn_pair o i ->
  derivable_pt_lim (fun t => compute (chem_eq g false) (upd e i t) old o) (e i) (J o i).
Proof.
  replace (l ++ Run e :: lins more ++ [Lin e]) with ((l ++ Run e :: lins more) ++ [Lin e]) by (rewrite <- app_assoc; reflexivity).
  intros Q N Hd Ho Hi Hp. unfold jacobian, played in Q. rewrite play_app in Q.
  destruct (play _ (l ++ Run e :: lins more) _ _) as [[s J0]|] eqn:E; [|discriminate].
  pose proof (chem_state _ _ _ _ _ _ E) as Es. cbn [fresh i_chem_eq] in Es. rewrite runs_app in Es. cbn [runs] in Es. rewrite runs_lins in Es.
  assert (W : ce_w s = Some (ce_weight g e)) by (rewrite Es; unfold ce_applies; rewrite fold_left_app; reflexivity).
  assert (Na : forall a, In a (runs l ++ [e]) -> none_traced g a).
  { intros a Ha. apply N. apply in_app_or in Ha as [Ha|[<-|[]]]; apply in_or_app; [left|right; left; auto]. clear -Ha. induction l as [|[x|x] r IH]; cbn [runs] in Ha; [destruct Ha|destruct Ha as [<-|Ha]; [left; auto|right; auto]|right; auto]. }
  cbn [play i_lin i_chem_eq] in Q. unfold ce_linearize in Q. rewrite W in Q.
  assert (EJ : forall r m, (r = true -> forall j, (j < np g)%nat -> m j = false) -> ce_jac g r (ce_weight g e) m e J0 o i = jac_after (chem_eq g false) [] e o i).
  { intros r m Hm. unfold jac_after. cbn [fold_left].
    assert (A : ce_jac g r (ce_weight g e) m e J0 o i = ce_jac g r (ce_weight g e) m e (jinit (decls (chem_eq g false))) o i).
    { destruct (ce_keep g o i) as [K|K]; [|apply K]. rewrite !K. exact (chem_keep _ _ _ K _ _ _ _ _ E). }
    rewrite A. clear A. destruct r.
    - assert (B := partials_no_trace g e (jinit (decls (chem_eq g false))) o i (Na e ltac:(apply in_or_app; right; left; auto))). rewrite <- B. cbn [chem_eq partials].
      assert (Tr : forall j, (j < np g)%nat -> is_trace e j = false) by (intros j Hj; apply not_trace, (Na e); [apply in_or_app; right; left; auto|auto]).
      specialize (Hm eq_refl). unfold ce_jac. destruct o as [so|so j|u so|so a b]; try reflexivity.
      destruct (String.eqb so "n"); [|reflexivity]. destruct (Nat.ltb_spec j (np g)) as [Lj|Lj]; [|reflexivity]. cbn [andb]. rewrite Hm, Tr by auto.
      destruct i as [t|t k|u t|t a b]; try reflexivity. destruct (String.eqb t "n"); cbn [andb]; [|reflexivity].
      destruct (Nat.ltb_spec k (np g)) as [Lk|Lk]; [|reflexivity]. rewrite Hm, Tr by auto. reflexivity.
    - cbn [chem_eq partials]. unfold ce_jac. reflexivity. }
  assert (EE : J o i = jac_after (chem_eq g false) [] e o i).
  { destruct (ce_remove s).
    - destruct (ce_trace s) as [m|] eqn:Tm; [|discriminate]. injection Q as <-. apply EJ. intros _ j Hj.
      destruct (chem_mask g _ s Es) as [Z|(a & Ha & Z)]; [congruence|]. rewrite Tm in Z. injection Z as ->. apply not_trace, (Na a Ha). auto.
    - injection Q as <-. apply EJ. discriminate. }
  rewrite EE. apply C22_jacobian_partial; auto.
Qed.

(* ---- two histories of the reacting gas of C21 ---- *)
Definition b0 : env := upd (ex 1) (I "n" 0) (/ 10 ^ 11).
(* one mole number is a trace; the other species is (b1), or the trace species itself is (b2), out of balance *)
Definition b1 : env := upd b0 (I "pi" 0) ((mu gx b0 1 - 1) / 2).
Definition b2 : env := upd b0 (I "pi" 0) (mu gx b0 0 - 1).
Lemma i11 : 0 < / 10 ^ 11. Proof. apply Rinv_0_lt_compat, pow_lt. lra. Qed.
Lemma traced_b p : is_trace (upd b0 (I "pi" 0) p) 0 = true.
Proof.
  unfold is_trace, MIN_CONC. rewrite upd_neq by discriminate. unfold b0. rewrite upd_eq. destruct (Rle_dec _ _) as [|N]; [reflexivity|]. exfalso. apply N.
  cbn [pow]. lra.
Qed.
Lemma ntot_b p : ntot gx (upd b0 (I "pi" 0) p) = / 10 ^ 11 + 1.
Proof. unfold ntot. cbn [np gx]. rewrite ex_sum. rewrite !upd_neq by discriminate. unfold b0. rewrite upd_eq. rewrite upd_neq by discriminate. cbn [ex]. lra. Qed.
Lemma small_1 : small gx (ex 1). Proof. apply C22_nonvacuous. Qed.
Lemma norm_b1 : ~ ce_norm gx b1 true < / 10 ^ 4.
Proof.
  intros L. unfold ce_norm in L. cbn [np gx] in L. rewrite ex_sum in L. unfold ce_resid_n in L. unfold b1 at 1 in L. rewrite traced_b in L. cbn [andb] in L.
  assert (T1 : is_trace b1 1 = false). { unfold is_trace, MIN_CONC, b1. rewrite upd_neq by discriminate. unfold b0. rewrite upd_neq by discriminate. cbn [ex]. destruct (Rle_dec _ _) as [Z|]; [exfalso; cbn [pow] in Z; lra|reflexivity]. }
  rewrite T1 in L.
  assert (U : mu gx b1 1 - pi_a gx b1 1 = 1).
  { assert (Mu : mu gx b1 1 = mu gx b0 1) by reflexivity. rewrite Mu. unfold pi_a. cbn [ne gx]. rewrite ex_sum1. unfold b1. rewrite upd_eq. cbn [aij gx INR]. lra. }
  rewrite U in L.
  assert (W : 1 / 2 <= ce_weight gx b1 1).
  { unfold ce_weight, b1. rewrite ntot_b. rewrite upd_neq by discriminate. unfold b0. rewrite upd_neq by discriminate. replace (ex 1 (I "n" 1)) with 1 by (cbn [ex]; lra).
    assert (P := i11). unfold weight. set (x := 1 * (/ 10 ^ 11 + 1)). assert (Hx : 1 <= x) by (unfold x; lra).
    assert (E : exp (- 10 ^ 5 * x) <= 1 / 3).
    { replace (- 10 ^ 5 * x) with (- (10 ^ 5 * x)) by ring. rewrite exp_Ropp. apply Rle_trans with (/ 3); [|lra]. apply Rinv_le_contravar; [lra|].
      assert (Y : 3 <= 10 ^ 5 * x) by (cbn [pow]; nra). pose proof (exp_ineq1_le (10 ^ 5 * x)). lra. }
    assert (E0 := exp_pos (- 10 ^ 5 * x)). set (q := exp _) in *. assert (Z : 3 / 4 <= 1 / (1 + q)); [|lra].
    apply (Rmult_le_reg_r (1 + q)); [lra|]. replace (1 / (1 + q) * (1 + q)) with 1 by (field; lra). lra. }
  set (w := ce_weight gx b1 1) in *. assert (Q : 1 / 2 <= sqrt (0 ^ 2 + (1 * w) ^ 2)).
  { rewrite <- (sqrt_pow2 (1 / 2)) by lra. apply sqrt_le_1_alt. nra. }
  assert (/ 10 ^ 4 < 1 / 2) by (cbn [pow]; lra). lra.
Qed.
(* the same point, evaluated first or after another one, has two different residuals *)
Theorem C47_residuals_refuted : exists (g : gas) (l : list event) (e v v' : env) (j : nat),
  values (i_chem_eq g) [] e (fun _ => 0) = Some v /\ values (i_chem_eq g) l e (fun _ => 0) = Some v' /\
  (j < np g)%nat /\ (forall k, (k < np g)%nat -> 0 < e (I "n" k)) /\ v (I "n" j) <> v' (I "n" j).
Proof.
  exists gx, [Run (ex 1)], b2, (ce_resid gx false b2 (fun _ => 0)), (ce_resid gx true b2 (fun _ => 0)), 0%nat.
  split; [reflexivity|]. split; [|split; [cbn; lia|split]].
  - unfold values, played. cbn [play fresh i_chem_eq i_run ce_apply snd ce_init ce_remove fst]. rewrite norm_false. destruct (Rlt_dec _ _) as [|N]; [reflexivity|]. exfalso. exact (N small_1).
  - intros k Hk. unfold b2. rewrite upd_neq by discriminate. unfold b0. destruct (lt2 k Hk) as [-> | ->]; [rewrite upd_eq; apply i11|rewrite upd_neq by discriminate; cbn [ex]; lra].
  - unfold ce_resid. cbn [String.eqb Ascii.eqb Bool.eqb andb Nat.ltb Nat.leb np gx]. unfold ce_resid_n at 2. unfold b2 at 2. rewrite traced_b. cbn [andb]. unfold ce_resid_n. cbn [andb].
    assert (U : mu gx b2 0 - pi_a gx b2 0 = 1).
    { assert (Mu : mu gx b2 0 = mu gx b0 0) by reflexivity. rewrite Mu. unfold pi_a. cbn [ne gx]. rewrite ex_sum1. unfold b2. rewrite upd_eq. cbn [aij gx INR]. lra. }
    rewrite U. assert (W : 0 < ce_weight gx b2 0); [|lra].
    unfold ce_weight. apply weight_pos. unfold b2. rewrite ntot_b. rewrite upd_neq by discriminate. unfold b0. rewrite upd_eq. assert (P := i11). apply Rmult_lt_0_compat; lra.
Qed.
(* and a species once dropped may stay dropped in the derivatives: at a converged point without any trace species, evaluated and then
   linearised as the framework does, a row of the Jacobian is that of an equation the point does not have *)
Theorem C47_stale_mask_refuted : exists (g : gas) (l : list event) (e : env) (J : jac) (o i : var),
  jacobian (i_chem_eq g) (l ++ [Run e; Lin e]) = Some J /\ solved g false e /\ eq_dom g e /\ none_traced g e /\
  In o (outs (chem_eq g false)) /\ In i (ins (chem_eq g false)) /\ ~ nn_pair o i /\
  ~ derivable_pt_lim (fun t => compute (chem_eq g false) (upd e i t) (fun _ => 0) o) (e i) (J o i).
Proof.
  exists gx, [Run (ex 1); Run b1], (ex 1), (ce_jac gx true (ce_weight gx (ex 1)) (is_trace b1) (ex 1) (jinit (decls (chem_eq gx false)))), (I "n" 0), (I "pi" 0).
  destruct C22_nonvacuous as (D1 & N1 & S1 & _).
  assert (Ho : In (I "n" 0) (outs (chem_eq gx false))) by (left; reflexivity).
  assert (Hi : In (I "pi" 0) (ins (chem_eq gx false))) by (cbn [chem_eq ins]; rewrite !in_app_iff; right; right; right; left; left; reflexivity).
  assert (Hp : ~ nn_pair (I "n" 0) (I "pi" 0)) by (intros (a & b & _ & Q); discriminate).
  split; [|split; [apply ex_solved; lra|split; [exact D1|split; [exact N1|split; [exact Ho|split; [exact Hi|split; [exact Hp|]]]]]]].
  - unfold jacobian, played. cbn [app play fresh i_chem_eq i_run ce_apply snd ce_init ce_remove ce_trace ce_w i_decls i_lin]. rewrite !norm_false.
    assert (Sm : (if Rlt_dec (sqrt (nsum (np gx) (fun j => ((mu gx (ex 1) j - pi_a gx (ex 1) j) * ce_weight gx (ex 1) j) ^ 2))) (/ 10 ^ 4) then true else false) = true).
    { destruct (Rlt_dec _ _) as [|N]; [reflexivity|]. exfalso. exact (N S1). }
    rewrite Sm. cbv iota. destruct (Rlt_dec (ce_norm gx b1 true) (/ 10 ^ 4)) as [L|_]; [exfalso; exact (norm_b1 L)|]. cbv iota. rewrite norm_false, Sm.
    unfold ce_linearize. cbn [ce_w ce_remove ce_trace]. reflexivity.
  - intros D. pose proof (C22_jacobian_partial gx [] (ex 1) (fun _ => 0) _ _ D1 Ho Hi Hp) as D'. pose proof (uniqueness_limite _ _ _ _ D D') as Z.
    unfold jac_after in Z. cbn [fold_left chem_eq partials] in Z. unfold ce_jac in Z. cbn [String.eqb Ascii.eqb Bool.eqb andb Nat.ltb Nat.leb np ne gx] in Z.
    unfold b1 in Z at 1. rewrite traced_b in Z. cbn [orb andb aij INR] in Z.
    assert (W : 0 < ce_weight gx (ex 1) 0); [|replace (aij gx 0 0) with 1 in Z by (cbn [aij gx INR]; lra); lra]. unfold ce_weight. apply weight_pos. apply Rmult_lt_0_compat; [cbn [ex]; lra|]. apply (ntot_pos gx (ex 1) 0); [cbn; lia|]. apply D1.
Qed.
(* a history with two points and a linearisation in between meets the hypotheses of C47_derivatives, C47_stale and
   C47_chem_derivatives *)
Example C47_nonvacuous : exists J J' J'' s : jac, let e := upd (upd (fun _ => 1) (V "Pt") 14) (V "Tt") 500 in let a := upd e (V "Pt") 7 in
  jacobian i_corrected ([Run a; Lin a] ++ Run e :: lins [a] ++ [Lin e]) = Some J /\
  jacobian i_corrected ([Run e; Lin e; Run a] ++ [Lin e]) = Some s /\ last_run [Run e; Lin e; Run a] = Some a /\
  e (V "Tt") * a (V "Pt") ^ 2 <> a (V "Tt") * e (V "Pt") ^ 2 /\
  jacobian (i_rhs gx) ([Run (ex 1); Lin (ex 1)] ++ Run (ex 2) :: lins [] ++ [Lin (ex 2)]) = Some J' /\ smooth_at gx (ex 2 (V "T")) /\
  jacobian (i_chem_eq gx) ([Run (ex 1)] ++ Run (ex 1) :: lins [] ++ [Lin (ex 1)]) = Some J''.
Proof.
  destruct C22_nonvacuous as ((_ & _ & Sm) & _ & S1 & _).
  eexists. eexists. exists (ce_jac gx true (ce_weight gx (ex 1)) (is_trace (ex 1)) (ex 1) (jinit (decls (chem_eq gx false)))). eexists. cbv zeta. split; [reflexivity|]. split; [reflexivity|]. split; [reflexivity|]. split; [|split; [reflexivity|split; [exact Sm|]]].
  - rewrite ?upd_eq, ?upd_neq by discriminate. rewrite ?upd_eq. rewrite ?upd_neq by discriminate. rewrite ?upd_eq. lra.
  - unfold jacobian, played. cbn [app lins map play fresh i_chem_eq i_run ce_apply snd ce_init ce_remove ce_trace ce_w i_decls i_lin]. rewrite !norm_false.
    assert (Eq : (if Rlt_dec (sqrt (nsum (np gx) (fun j => ((mu gx (ex 1) j - pi_a gx (ex 1) j) * ce_weight gx (ex 1) j) ^ 2))) (/ 10 ^ 4) then true else false) = true).
    { destruct (Rlt_dec _ _) as [|N]; [reflexivity|]. exfalso. exact (N S1). }
    rewrite Eq. cbv iota.
    assert (Nt : ce_norm gx (ex 1) true = ce_norm gx (ex 1) false).
    { unfold ce_norm. f_equal. apply nsum_ext. intros j Hj. unfold ce_resid_n. cbn [andb]. rewrite not_trace; [reflexivity|]. apply C22_nonvacuous. exact Hj. }
    rewrite Nt, norm_false, Eq. unfold ce_linearize. cbn [ce_w ce_remove ce_trace]. reflexivity.
Qed.
