From Verif Require Import Lib_R Lib_Loop Model_Equil.
From Coq Require Import Lia.
Open Scope string_scope. Open Scope list_scope. Open Scope R_scope.

(* ---- sums ---- *)
Lemma in_seq0 n j : In j (seq 0 n) <-> (j < n)%nat.
Proof. rewrite in_seq. lia. Qed.
Lemma nsum_ext n f h : (forall j, (j < n)%nat -> f j = h j) -> nsum n f = nsum n h.
Proof. intros H. apply lsum_ext. intros j Hj. apply H, in_seq0; auto. Qed.
Lemma nsum_plus n f h : nsum n (fun j => f j + h j) = nsum n f + nsum n h. Proof. apply lsum_plus. Qed.
Lemma nsum_minus n f h : nsum n (fun j => f j - h j) = nsum n f - nsum n h. Proof. apply lsum_minus. Qed.
Lemma nsum_scal n c f : nsum n (fun j => c * f j) = c * nsum n f. Proof. apply lsum_scal. Qed.
Lemma nsum_scal_r n c f : nsum n (fun j => f j * c) = nsum n f * c. Proof. apply lsum_scal_r. Qed.
Lemma nsum_swap n m f : nsum n (fun i => nsum m (fun j => f i j)) = nsum m (fun j => nsum n (fun i => f i j)).
Proof. unfold nsum. apply lsum_swap. Qed.
Lemma nsum_le n f h : (forall j, (j < n)%nat -> f j <= h j) -> nsum n f <= nsum n h.
Proof. intros H. apply lsum_le. intros j Hj. apply H, in_seq0; auto. Qed.
Lemma nsum_pos n f : (0 < n)%nat -> (forall j, (j < n)%nat -> 0 < f j) -> 0 < nsum n f.
Proof. intros Hn H. apply lsum_pos; [destruct n; [lia|discriminate]|]. intros j Hj. apply H, in_seq0; auto. Qed.
Lemma nsum_nonneg n f : (forall j, (j < n)%nat -> 0 <= f j) -> 0 <= nsum n f.
Proof. intros H. apply lsum_nonneg. intros j Hj. apply H, in_seq0; auto. Qed.
Lemma lsum_le_eq {A} (f h : A -> R) l : (forall a, In a l -> f a <= h a) -> lsum f l = lsum h l -> forall a, In a l -> f a = h a.
Proof.
  induction l as [|b r IH]; intros Hle E a Ha; [destruct Ha|]. cbn [lsum] in E.
  assert (lsum f r <= lsum h r) by (apply lsum_le; intros; apply Hle; right; auto).
  assert (f b <= h b) by (apply Hle; left; auto). destruct Ha as [<-|Ha]; [lra|]. apply IH; auto; [intros; apply Hle; right; auto|lra].
Qed.
Lemma nsum_le_eq n f h : (forall j, (j < n)%nat -> f j <= h j) -> nsum n f = nsum n h -> forall j, (j < n)%nat -> f j = h j.
Proof. intros H E j Hj. eapply lsum_le_eq; [|exact E|apply in_seq0; auto]. intros k Hk. apply H, in_seq0; auto. Qed.
Lemma is_derive_nsum n (F : R -> nat -> R) d x : (forall j, (j < n)%nat -> is_derive (fun t => F t j) x (d j)) -> is_derive (fun t => nsum n (F t)) x (nsum n d).
Proof. intros H. unfold nsum. apply is_derive_lsum. intros j Hj. apply H, in_seq0; auto. Qed.
Lemma is_derive_nsum_single n (F : R -> nat -> R) k d x : (k < n)%nat -> (forall j, (j < n)%nat -> j <> k -> is_derive (fun t => F t j) x 0) ->
  is_derive (fun t => F t k) x d -> is_derive (fun t => nsum n (F t)) x d.
Proof. intros Hk H0' Hd. unfold nsum. apply (is_derive_lsum_single F x (seq 0 n) k d); auto; [apply seq_NoDup|apply in_seq0; auto|intros; apply H0'; auto; apply in_seq0; auto]. Qed.
Lemma is_derive_nsum_0 n (F : R -> nat -> R) x : (forall j, (j < n)%nat -> is_derive (fun t => F t j) x 0) -> is_derive (fun t => nsum n (F t)) x 0.
Proof. intros H. unfold nsum. apply is_derive_lsum_0. intros j Hj. apply H, in_seq0; auto. Qed.

(* ---- equilibrium: Gibbs energy ---- *)
Lemma ln_le_sub1 x : 0 < x -> ln x <= x - 1.
Proof.
  intros Hx. destruct (Req_dec (ln x) 0) as [E|N].
  - assert (x = 1). { rewrite <- (exp_ln x Hx), E. apply exp_0. } lra.
  - assert (H := exp_ineq1 (ln x) N). rewrite exp_ln in H by auto. lra.
Qed.
Lemma ln_lt_sub1 x : 0 < x -> x <> 1 -> ln x < x - 1.
Proof.
  intros Hx N. assert (ln x <> 0). { intros E. apply N. rewrite <- (exp_ln x Hx), E. apply exp_0. }
  assert (H' := exp_ineq1 (ln x) H). rewrite exp_ln in H' by auto. lra.
Qed.
(* one term of the relative entropy *)
Lemma rel_term m M n N : 0 <= m -> 0 < M -> 0 < n -> 0 < N -> m * (ln n - ln N) - m * (ln m - ln M) <= M * n / N - m.
Proof.
  intros Hm HM Hn HN. destruct Hm as [Hm|<-].
  - assert (E : m * (ln n - ln N) - m * (ln m - ln M) = m * ln (n / N * (M / m))).
    { rewrite ln_mult, !ln_div; try apply Rdiv_lt_0_compat; auto. ring. }
    rewrite E. assert (P : 0 < n / N * (M / m)) by (apply Rmult_lt_0_compat; apply Rdiv_lt_0_compat; auto).
    apply Rle_trans with (m * (n / N * (M / m) - 1)); [apply Rmult_le_compat_l; [lra|apply ln_le_sub1; auto]|]. right. field. lra.
  - assert (0 < M * n / N) by (apply Rdiv_lt_0_compat; auto; apply Rmult_lt_0_compat; auto). lra.
Qed.
Lemma rel_term_eq m M n N : 0 <= m -> 0 < M -> 0 < n -> 0 < N -> m * (ln n - ln N) - m * (ln m - ln M) = M * n / N - m -> m / M = n / N.
Proof.
  intros Hm HM Hn HN EQ. destruct Hm as [Hm|<-].
  - assert (E : m * (ln n - ln N) - m * (ln m - ln M) = m * ln (n / N * (M / m))).
    { rewrite ln_mult, !ln_div; try apply Rdiv_lt_0_compat; auto. ring. }
    assert (P : 0 < n / N * (M / m)) by (apply Rmult_lt_0_compat; apply Rdiv_lt_0_compat; auto).
    destruct (Req_dec (n / N * (M / m)) 1) as [E1|N1].
    + apply (Rmult_eq_reg_r (M / m)); [|apply Rgt_not_eq, Rdiv_lt_0_compat; auto]. rewrite E1. field. lra.
    + exfalso. assert (m * ln (n / N * (M / m)) < m * (n / N * (M / m) - 1)) by (apply Rmult_lt_compat_l; [auto|apply ln_lt_sub1; auto]).
      replace (m * (n / N * (M / m) - 1)) with (M * n / N - m) in H by (field; lra). lra.
  - exfalso. assert (0 < M * n / N) by (apply Rdiv_lt_0_compat; auto; apply Rmult_lt_0_compat; auto). lra.
Qed.

(* ---- the damping weight ---- *)
Definition dweight (x : R) : R := 2 * 10 ^ 5 * exp (- 10 ^ 5 * x) / (1 + exp (- 10 ^ 5 * x)) ^ 2.
Lemma weight_pos x : 0 < x -> 0 < weight x.
Proof.
  intros Hx. unfold weight. assert (P : 0 < 10 ^ 5) by (apply pow_lt; lra). set (c := 10 ^ 5) in *. clearbody c.
  assert (exp (- c * x) < 1). { rewrite <- exp_0. apply exp_increasing. nra. }
  assert (0 < exp (- c * x)) by apply exp_pos. set (y := exp (- c * x)) in *. clearbody y.
  assert (/ 2 < / (1 + y)) by (apply Rinv_lt_contravar; lra). unfold Rdiv. lra.
Qed.
Lemma dweight_pos x : 0 < dweight x.
Proof.
  unfold dweight. assert (P : 0 < 10 ^ 5) by (apply pow_lt; lra). assert (0 < exp (- 10 ^ 5 * x)) by apply exp_pos.
  apply Rdiv_lt_0_compat; [|apply pow_lt; lra]. repeat apply Rmult_lt_0_compat; auto; lra.
Qed.
Lemma is_derive_weight x : is_derive weight x (dweight x).
Proof.
  unfold weight, dweight. set (c := 10 ^ 5). clearbody c. assert (0 < exp (- c * x)) by apply exp_pos.
  auto_derive; [lra|]. field. lra.
Qed.
(* one row of the Gibbs residual *)
Lemma row_derive (h p f Nf L : R -> R) x dh dp df dN dL : 0 < f x -> 0 < Nf x ->
  is_derive h x dh -> is_derive p x dp -> is_derive f x df -> is_derive Nf x dN -> is_derive L x dL ->
  is_derive (fun t => (h t + ln (f t) + L t - ln (Nf t) - p t) * weight (f t * Nf t)) x
    ((dh + df / f x + dL - dN / Nf x - dp) * weight (f x * Nf x) + (h x + ln (f x) + L x - ln (Nf x) - p x) * (dweight (f x * Nf x) * (df * Nf x + f x * dN))).
Proof.
  intros Pf PN Hh Hp Hf HN HL.
  assert (W : is_derive (fun t => weight (f t * Nf t)) x (dweight (f x * Nf x) * (df * Nf x + f x * dN))).
  { eapply is_derive_val. apply (is_derive_comp (V := R_NormedModule) weight (fun t => f t * Nf t)); [apply is_derive_weight|].
    apply (is_derive_mult f Nf x df dN Hf HN). intros; apply Rmult_comm. unfold scal, plus; simpl. unfold mult; simpl. ring. }
  assert (Lf : is_derive (fun t => ln (f t)) x (df / f x)).
  { eapply is_derive_val. apply (is_derive_comp (V := R_NormedModule) ln f); [apply is_derive_Reals, derivable_pt_lim_ln; auto|exact Hf]. unfold scal; simpl; unfold mult; simpl. unfold Rdiv; ring. }
  assert (LN : is_derive (fun t => ln (Nf t)) x (dN / Nf x)).
  { eapply is_derive_val. apply (is_derive_comp (V := R_NormedModule) ln Nf); [apply is_derive_Reals, derivable_pt_lim_ln; auto|exact HN]. unfold scal; simpl; unfold mult; simpl. unfold Rdiv; ring. }
  eapply is_derive_val. apply (is_derive_mult (fun t => h t + ln (f t) + L t - ln (Nf t) - p t) (fun t => weight (f t * Nf t)) x).
  - apply (is_derive_minus (V := R_NormedModule)); [|exact Hp]. apply (is_derive_minus (V := R_NormedModule)); [|exact LN].
    apply (is_derive_plus (V := R_NormedModule)); [|exact HL]. apply (is_derive_plus (V := R_NormedModule)); [exact Hh|exact Lf].
  - exact W.
  - intros; apply Rmult_comm.
  - unfold plus, minus, opp, mult, Hierarchy.plus, Hierarchy.mult; simpl. unfold plus, opp, mult; simpl. unfold Rminus. ring.
Qed.

(* ---- derivatives of environments ---- *)
Definition ind (i x : var) : R := if var_eq_dec i x then 1 else 0.
Lemma ind_t x : ind x x = 1. Proof. unfold ind. destruct (var_eq_dec x x); congruence. Qed.
Lemma ind_f x y : x <> y -> ind x y = 0. Proof. unfold ind. destruct (var_eq_dec x y); congruence. Qed.
Lemma is_derive_upd (e : env) i x : is_derive (fun t => upd e i t x) (e i) (ind i x).
Proof.
  unfold ind. destruct (var_eq_dec i x) as [->|N].
  - apply is_derive_ext with (f := fun t => t); [intros t; rewrite upd_eq; reflexivity|]. apply (is_derive_id (K := R_AbsRing)).
  - apply is_derive_ext with (f := fun _ => e x); [intros t; rewrite upd_neq; auto|]. apply (is_derive_const (V := R_NormedModule)).
Qed.
Lemma upd_self (e : env) i x : upd e i (e i) x = e x.
Proof. destruct (var_eq_dec i x) as [->|N]; [apply upd_eq|apply upd_neq; auto]. Qed.
(* a function of one variable seen through an environment *)
Lemma is_derive_fun (f : R -> R) (e : env) i x d : is_derive f (e x) d -> is_derive (fun t => f (upd e i t x)) (e i) (d * ind i x).
Proof.
  intros H. eapply is_derive_val. apply (is_derive_comp (V := R_NormedModule) f (fun t => upd e i t x)); [rewrite upd_self; exact H|apply is_derive_upd].
  unfold scal; simpl; unfold mult; simpl. ring.
Qed.
Lemma dscal (f : R -> R) x d c : is_derive f x d -> is_derive (fun t => f t * c) x (d * c).
Proof. intros H. eapply is_derive_val. apply (is_derive_mult f (fun _ => c) x d 0 H); [apply (is_derive_const (V := R_NormedModule))|intros; apply Rmult_comm]. unfold plus, mult; simpl. ring. Qed.
Lemma dscal_l (f : R -> R) x d c : is_derive f x d -> is_derive (fun t => c * f t) x (c * d).
Proof. intros H. eapply is_derive_ext; [intros t; apply Rmult_comm|]. eapply is_derive_val; [apply dscal; exact H|ring]. Qed.
Lemma dmul (f h : R -> R) x df dh : is_derive f x df -> is_derive h x dh -> is_derive (fun t => f t * h t) x (df * h x + f x * dh).
Proof. intros F H. eapply is_derive_val. apply (is_derive_mult f h x df dh F H); intros; apply Rmult_comm. unfold plus, mult; simpl. ring. Qed.
Lemma dplus (f h : R -> R) x df dh : is_derive f x df -> is_derive h x dh -> is_derive (fun t => f t + h t) x (df + dh).
Proof. apply (is_derive_plus (V := R_NormedModule)). Qed.
Lemma dminus (f h : R -> R) x df dh : is_derive f x df -> is_derive h x dh -> is_derive (fun t => f t - h t) x (df - dh).
Proof. apply (is_derive_minus (V := R_NormedModule)). Qed.
Lemma dopp (f : R -> R) x df : is_derive f x df -> is_derive (fun t => - f t) x (- df).
Proof. apply (is_derive_opp (V := R_NormedModule)). Qed.
Lemma dconst c x : is_derive (fun _ : R => c) x 0.
Proof. apply (is_derive_const (V := R_NormedModule)). Qed.
Lemma dln (f : R -> R) x df : 0 < f x -> is_derive f x df -> is_derive (fun t => ln (f t)) x (df / f x).
Proof.
  intros P F. eapply is_derive_val. apply (is_derive_comp (V := R_NormedModule) ln f); [apply is_derive_Reals, derivable_pt_lim_ln; auto|exact F].
  unfold scal; simpl; unfold mult; simpl. unfold Rdiv; ring.
Qed.
Lemma ddiv (f h : R -> R) x df dh : h x <> 0 -> is_derive f x df -> is_derive h x dh -> is_derive (fun t => f t / h t) x ((df * h x - f x * dh) / h x ^ 2).
Proof. intros N F H. apply is_derive_div; auto. Qed.
(* derivatives do not see values away from the point *)
Lemma dloc (f h : R -> R) x d : (exists eps : posreal, forall t, Rabs (t - x) < eps -> f t = h t) -> is_derive h x d -> is_derive f x d.
Proof. intros L H. apply is_derive_Reals. apply (dl_local f h x d L). apply is_derive_Reals; auto. Qed.
Lemma nsum_ind n nm k (c : nat -> R) : (k < n)%nat -> nsum n (fun j => ind (I nm k) (I nm j) * c j) = c k.
Proof.
  intros H. unfold nsum. rewrite (lsum_single _ (seq 0 n) k (seq_NoDup _ _)); [rewrite ind_t; ring|apply in_seq0; auto|].
  intros b _ N. rewrite ind_f; [ring|intros E; injection E; auto].
Qed.
Lemma nsum_ind0 n x nm (c : nat -> R) : (forall j, x <> I nm j) -> nsum n (fun j => ind x (I nm j) * c j) = 0.
Proof. intros H. apply lsum_0. intros j _. rewrite ind_f by auto. ring. Qed.
Lemma nsum_ind1 n nm k : (k < n)%nat -> nsum n (fun j => ind (I nm k) (I nm j)) = 1.
Proof. intros H. rewrite <- (nsum_ind n nm k (fun _ => 1) H). apply nsum_ext. intros. ring. Qed.
Lemma nsum_ind01 n x nm : (forall j, x <> I nm j) -> nsum n (fun j => ind x (I nm j)) = 0.
Proof. intros H. apply lsum_0. intros j _. rewrite ind_f by auto. reflexivity. Qed.

(* the thermo functions are differentiable at T, and what applyJ returns are their derivatives *)
Definition smooth_at (g : gas) (T : R) : Prop := forall j, (j < np g)%nat ->
  derivable_pt_lim (H0 g j) T (dH0 g j T) /\ derivable_pt_lim (S0 g j) T (dS0 g j T) /\ derivable_pt_lim (Cp0 g j) T (dCp0 g j T).
Section CE.
Variable g : gas.
Definition ce_dom (e : env) : Prop := 0 < e (V "P") /\ (forall j, (j < np g)%nat -> 0 < e (I "n" j)) /\ smooth_at g (e (V "T")).
Lemma pref_pos : 0 < P_REF. Proof. unfold P_REF. lra. Qed.
Lemma ce_P_pos e : 0 < e (V "P") -> ce_P e = e (V "P") / P_REF.
Proof. intros H. unfold ce_P. destruct (Rlt_dec _ _) as [|N]; [reflexivity|]. exfalso. apply N. apply Rdiv_lt_0_compat; [auto|apply pref_pos]. Qed.
Lemma ntot_pos e j : (j < np g)%nat -> (forall j, (j < np g)%nat -> 0 < e (I "n" j)) -> 0 < ntot g e.
Proof. intros Hj H. apply nsum_pos; [lia|auto]. Qed.
Lemma keep_pos (e : env) i x : 0 < e x -> exists d : posreal, forall t, Rabs (t - e i) < d -> 0 < upd e i t x.
Proof.
  intros H. destruct (var_eq_dec i x) as [->|N].
  - destruct (near_gt _ _ H) as [d Hd]. exists d. intros t Ht. rewrite upd_eq. auto.
  - exists (mkposreal 1 Rlt_0_1). intros t _. rewrite upd_neq; auto.
Qed.
Definition und (e : env) (j : nat) : R := mu g e j - pi_a g e j.
Lemma ntot_derive e i : is_derive (fun t => ntot g (upd e i t)) (e i) (nsum (np g) (fun j => ind i (I "n" j))).
Proof. unfold ntot. apply (is_derive_nsum (np g) (fun t j => upd e i t (I "n" j))). intros. apply is_derive_upd. Qed.
Lemma pi_a_derive e i j : is_derive (fun t => pi_a g (upd e i t) j) (e i) (nsum (ne g) (fun k => ind i (I "pi" k) * aij g k j)).
Proof. unfold pi_a. apply (is_derive_nsum (ne g) (fun t k => upd e i t (I "pi" k) * aij g k j)). intros. apply dscal, is_derive_upd. Qed.
Lemma row_d e i j : ce_dom e -> (j < np g)%nat ->
  is_derive (fun t => und (upd e i t) j * ce_weight g (upd e i t) j) (e i)
   (((dH0 g j (e (V "T")) - dS0 g j (e (V "T"))) * ind i (V "T") + ind i (I "n" j) / e (I "n" j) + ind i (V "P") / e (V "P")
     - nsum (np g) (fun j => ind i (I "n" j)) / ntot g e - nsum (ne g) (fun k => ind i (I "pi" k) * aij g k j)) * ce_weight g e j
    + und e j * (dweight (e (I "n" j) * ntot g e) * (ind i (I "n" j) * ntot g e + e (I "n" j) * nsum (np g) (fun j => ind i (I "n" j))))).
Proof.
  intros (HP & Hn & Hs) Hj. destruct (Hs j Hj) as (D1 & D2 & _).
  assert (HN := ntot_pos e j Hj Hn). assert (Hr := pref_pos).
  assert (EN : ntot g (upd e i (e i)) = ntot g e) by (apply nsum_ext; intros; apply upd_self).
  assert (EP : pi_a g (upd e i (e i)) j = pi_a g e j) by (apply nsum_ext; intros; rewrite upd_self; reflexivity).
  pose proof (row_derive (fun t => H0 g j (upd e i t (V "T")) - S0 g j (upd e i t (V "T"))) (fun t => pi_a g (upd e i t) j)
    (fun t => upd e i t (I "n" j)) (fun t => ntot g (upd e i t)) (fun t => ln (ce_P (upd e i t))) (e i)
    ((dH0 g j (e (V "T")) - dS0 g j (e (V "T"))) * ind i (V "T")) (nsum (ne g) (fun k => ind i (I "pi" k) * aij g k j))
    (ind i (I "n" j)) (nsum (np g) (fun j => ind i (I "n" j))) (ind i (V "P") / e (V "P"))) as D. cbv beta in D.
  rewrite ?upd_self, ?EN, ?EP in D.
  assert (EC : ce_P (upd e i (e i)) = ce_P e) by (unfold ce_P; rewrite upd_self; reflexivity). rewrite EC in D.
  unfold und, mu, ce_weight. eapply is_derive_val; [apply D|]; auto.
  - eapply is_derive_val; [apply dminus; apply is_derive_fun; apply is_derive_Reals; eassumption|]. ring.
  - apply pi_a_derive.
  - apply is_derive_upd.
  - apply ntot_derive.
  - destruct (keep_pos e i (V "P") HP) as [d Hd].
    apply (dloc _ (fun t => ln (upd e i t (V "P") / P_REF))); [exists d; intros t Ht; rewrite ce_P_pos by (apply Hd; auto); reflexivity|].
    eapply is_derive_val; [apply (dln (fun t => upd e i t (V "P") / P_REF)); [rewrite upd_self; apply Rdiv_lt_0_compat; auto|]|].
    + apply (dscal (fun t => upd e i t (V "P"))). apply is_derive_upd.
    + cbv beta. rewrite upd_self. field. lra.
Qed.
Lemma ltb_t j n : (j < n)%nat -> Nat.ltb j n = true. Proof. apply Nat.ltb_lt. Qed.
Lemma jinit_snoc ds os is v o i : jinit (ds ++ [(os, is, v)]) o i = if in_dec var_eq_dec o os then if in_dec var_eq_dec i is then v else jinit ds o i else jinit ds o i.
Proof. unfold jinit. rewrite fold_left_app. reflexivity. Qed.
Definition ce_corr (e : env) (o i : var) : R :=
  match o, i with I s j, I t k => if String.eqb s "n" && String.eqb t "n" then
     und e j * (dweight (e (I "n" j) * ntot g e) * (ind i o * ntot g e + e (I "n" j))) else 0 | _, _ => 0 end.
Ltac iff_map H := apply in_map_iff in H as (?k & <- & ?Hk); match goal with Hk : In _ (seq 0 _) |- _ => apply in_seq0 in Hk end.
Lemma ce_ins_inv i : In i (ins (chem_eq g false)) ->
  (exists k, (k < ne g)%nat /\ i = I "composition" k) \/ i = V "P" \/ i = V "T" \/ (exists k, (k < np g)%nat /\ i = I "n" k) \/
  (exists k, (k < ne g)%nat /\ i = I "pi" k) \/ i = V "n_moles".
Proof.
  cbn [chem_eq ins]. unfold eq_b, eq_n, eq_pi. rewrite !in_app_iff. cbn [In]. intros [H|[H|[H|[H|H]]]].
  - left. apply in_map_iff in H as (k & <- & Hk). apply in_seq0 in Hk. eauto.
  - destruct H as [<-|[<-|[]]]; auto.
  - right; right; right; left. apply in_map_iff in H as (k & <- & Hk). apply in_seq0 in Hk. eauto.
  - right; right; right; right; left. apply in_map_iff in H as (k & <- & Hk). apply in_seq0 in Hk. eauto.
  - destruct H as [<-|[]]. auto 10.
Qed.
Lemma ce_outs_inv o : In o (outs (chem_eq g false)) ->
  (exists k, (k < np g)%nat /\ o = I "n" k) \/ (exists k, (k < ne g)%nat /\ o = I "pi" k) \/ o = V "n_moles".
Proof.
  cbn [chem_eq outs]. unfold eq_n, eq_pi. rewrite !in_app_iff. cbn [In]. intros [H|[H|H]].
  - left. apply in_map_iff in H as (k & <- & Hk). apply in_seq0 in Hk. eauto.
  - right; left. apply in_map_iff in H as (k & <- & Hk). apply in_seq0 in Hk. eauto.
  - destruct H as [<-|[]]. auto.
Qed.
Lemma ce_jinit o i : jinit (decls (chem_eq g false)) o i = ind o (V "n_moles") * - ind i (V "n_moles").
Proof.
  cbn [chem_eq decls].
  match goal with |- jinit [?a; ?b; ?c; ?d] _ _ = _ => change [a; b; c; d] with ([a; b; c] ++ [d]) end.
  rewrite jinit_snoc. rewrite jinit_zero by (intros d [<-|[<-|[<-|[]]]]; reflexivity). unfold ind.
  destruct (in_dec var_eq_dec o [V "n_moles"]) as [[<-|[]]|N1]; [|destruct (var_eq_dec o (V "n_moles")) as [->|]; [exfalso; apply N1; left; auto|ring]].
  destruct (var_eq_dec _ _) as [_|]; [|congruence].
  destruct (in_dec var_eq_dec i [V "n_moles"]) as [[<-|[]]|N2]; [destruct (var_eq_dec _ _); [ring|congruence]|].
  destruct (var_eq_dec i (V "n_moles")) as [->|]; [exfalso; apply N2; left; auto|ring].
Qed.
Lemma ce_core e old o i : ce_dom e -> In o (outs (chem_eq g false)) -> In i (ins (chem_eq g false)) ->
  (exists v, (forall J, partials (chem_eq g false) e J o i = v) /\ derivable_pt_lim (fun t => compute (chem_eq g false) (upd e i t) old o) (e i) (v + ce_corr e o i)) \/
  ((forall e J, partials (chem_eq g false) e J o i = J o i) /\ derivable_pt_lim (fun t => compute (chem_eq g false) (upd e i t) old o) (e i) (jinit (decls (chem_eq g false)) o i + ce_corr e o i)).
Proof.
  intros Hd Ho Hi. apply ce_ins_inv in Hi. rewrite ce_jinit. cbn [chem_eq partials compute].
  apply ce_outs_inv in Ho as [(j & Hj & ->)|[(j & Hj & ->)| ->]].
  - (* n rows *)
    assert (E : forall t, ce_resid g false (upd e i t) old (I "n" j) = und (upd e i t) j * ce_weight g (upd e i t) j).
    { intros t. unfold ce_resid. cbn [String.eqb Ascii.eqb Bool.eqb andb]. rewrite (ltb_t _ _ Hj). unfold ce_resid_n. cbn [andb]. reflexivity. }
    assert (D := row_d e i j Hd Hj).
    destruct Hi as [(k & Hk & ->)|[->|[->|[(k & Hk & ->)|[(k & Hk & ->)| ->]]]]]; cbv beta in E, D.
    + right. split; [intros; unfold ce_jac; cbn [String.eqb Ascii.eqb Bool.eqb andb]; rewrite (ltb_t _ _ Hj); reflexivity|].
      eapply dl_ext; [exact E|]. apply is_derive_Reals. eapply is_derive_val; [exact D|].
      rewrite !ind_f by discriminate. rewrite nsum_ind01, nsum_ind0 by discriminate. cbn [ce_corr String.eqb Ascii.eqb Bool.eqb andb]. unfold Rdiv; ring.
    + left. eexists. split; [intros; unfold ce_jac; cbn [String.eqb Ascii.eqb Bool.eqb andb]; rewrite (ltb_t _ _ Hj); reflexivity|].
      eapply dl_ext; [exact E|]. apply is_derive_Reals. eapply is_derive_val; [exact D|].
      rewrite ind_t, !ind_f by discriminate. rewrite nsum_ind01, nsum_ind0 by discriminate. cbn [ce_corr String.eqb Ascii.eqb Bool.eqb andb].
      assert (HP := proj1 Hd). assert (Hr := pref_pos). unfold Rdiv. rewrite ?Rmult_0_l. field. lra.
    + left. eexists. split; [intros; unfold ce_jac; cbn [String.eqb Ascii.eqb Bool.eqb andb]; rewrite (ltb_t _ _ Hj); reflexivity|].
      eapply dl_ext; [exact E|]. apply is_derive_Reals. eapply is_derive_val; [exact D|].
      rewrite ind_t, !ind_f by discriminate. rewrite nsum_ind01, nsum_ind0 by discriminate. cbn [ce_corr String.eqb Ascii.eqb Bool.eqb andb]. unfold Rdiv; ring.
    + left. eexists. split; [intros; unfold ce_jac; cbn [String.eqb Ascii.eqb Bool.eqb andb]; rewrite (ltb_t _ _ Hj), (ltb_t _ _ Hk); reflexivity|].
      eapply dl_ext; [exact E|]. apply is_derive_Reals. eapply is_derive_val; [exact D|].
      rewrite (ind_f (I "n" k) (V "T")), (ind_f (I "n" k) (V "P")) by discriminate. rewrite nsum_ind1, nsum_ind0 by (auto; discriminate). cbn [ce_corr String.eqb Ascii.eqb Bool.eqb andb].
      assert (HN := ntot_pos e j Hj (proj1 (proj2 Hd))). assert (Hn := proj1 (proj2 Hd) j Hj). unfold ce_weight, Rdiv.
      destruct (Nat.eqb_spec j k) as [->|Nk]; [rewrite ind_t|rewrite (ind_f (I "n" k)) by (intros Q; injection Q; auto)]; ring.
    + left. eexists. split; [intros; unfold ce_jac; cbn [String.eqb Ascii.eqb Bool.eqb andb]; rewrite (ltb_t _ _ Hj), (ltb_t _ _ Hk); reflexivity|].
      eapply dl_ext; [exact E|]. apply is_derive_Reals. eapply is_derive_val; [exact D|].
      rewrite !ind_f by discriminate. rewrite nsum_ind01, (nsum_ind _ _ _ (fun k => aij g k j)) by (auto; discriminate). cbn [ce_corr String.eqb Ascii.eqb Bool.eqb andb]. unfold Rdiv; ring.
    + right. split; [intros; unfold ce_jac; cbn [String.eqb Ascii.eqb Bool.eqb andb]; rewrite (ltb_t _ _ Hj); reflexivity|].
      eapply dl_ext; [exact E|]. apply is_derive_Reals. eapply is_derive_val; [exact D|].
      rewrite !ind_f by discriminate. rewrite nsum_ind01, nsum_ind0 by discriminate. cbn [ce_corr String.eqb Ascii.eqb Bool.eqb andb]. unfold Rdiv; ring.
  - (* pi rows *)
    assert (E : forall t, ce_resid g false (upd e i t) old (I "pi" j) = nsum (np g) (fun k => aij g j k * upd e i t (I "n" k)) - upd e i t (I "composition" j)).
    { intros t. unfold ce_resid. cbn [String.eqb Ascii.eqb Bool.eqb andb]. rewrite (ltb_t _ _ Hj). reflexivity. }
    assert (D : is_derive (fun t => nsum (np g) (fun k => aij g j k * upd e i t (I "n" k)) - upd e i t (I "composition" j)) (e i)
       (nsum (np g) (fun k => ind i (I "n" k) * aij g j k) - ind i (I "composition" j))).
    { apply dminus; [|apply is_derive_upd]. apply (is_derive_nsum (np g) (fun t k => aij g j k * upd e i t (I "n" k))). intros. eapply is_derive_val; [apply dscal_l, is_derive_upd|ring]. }
    destruct Hi as [(k & Hk & ->)|[->|[->|[(k & Hk & ->)|[(k & Hk & ->)| ->]]]]].
    + left. eexists. split; [intros; unfold ce_jac; cbn [String.eqb Ascii.eqb Bool.eqb andb]; rewrite (ltb_t _ _ Hj), (ltb_t _ _ Hk); reflexivity|].
      eapply dl_ext; [exact E|]. apply is_derive_Reals. eapply is_derive_val; [exact D|]. rewrite nsum_ind0 by discriminate.
      cbn [ce_corr String.eqb Ascii.eqb Bool.eqb andb]. unfold sel_eq. destruct (Nat.eqb_spec j k) as [->|Nk]; [rewrite ind_t; ring|rewrite ind_f by (intros Q; injection Q; auto); ring].
    + right. split; [intros; unfold ce_jac; cbn [String.eqb Ascii.eqb Bool.eqb andb]; rewrite (ltb_t _ _ Hj); reflexivity|].
      eapply dl_ext; [exact E|]. apply is_derive_Reals. eapply is_derive_val; [exact D|]. rewrite nsum_ind0, !ind_f by discriminate. cbn [ce_corr]. ring.
    + right. split; [intros; unfold ce_jac; cbn [String.eqb Ascii.eqb Bool.eqb andb]; rewrite (ltb_t _ _ Hj); reflexivity|].
      eapply dl_ext; [exact E|]. apply is_derive_Reals. eapply is_derive_val; [exact D|]. rewrite nsum_ind0, !ind_f by discriminate. cbn [ce_corr]. ring.
    + left. eexists. split; [intros; unfold ce_jac; cbn [String.eqb Ascii.eqb Bool.eqb andb]; rewrite (ltb_t _ _ Hj), (ltb_t _ _ Hk); reflexivity|].
      eapply dl_ext; [exact E|]. apply is_derive_Reals. eapply is_derive_val; [exact D|]. rewrite nsum_ind by auto. rewrite ind_f by discriminate.
      cbn [ce_corr String.eqb Ascii.eqb Bool.eqb andb]. ring.
    + right. split; [intros; unfold ce_jac; cbn [String.eqb Ascii.eqb Bool.eqb andb]; rewrite (ltb_t _ _ Hj); reflexivity|].
      eapply dl_ext; [exact E|]. apply is_derive_Reals. eapply is_derive_val; [exact D|]. rewrite nsum_ind0, !ind_f by discriminate. cbn [ce_corr String.eqb Ascii.eqb Bool.eqb andb]. ring.
    + right. split; [intros; unfold ce_jac; cbn [String.eqb Ascii.eqb Bool.eqb andb]; rewrite (ltb_t _ _ Hj); reflexivity|].
      eapply dl_ext; [exact E|]. apply is_derive_Reals. eapply is_derive_val; [exact D|]. rewrite nsum_ind0, !ind_f by discriminate. cbn [ce_corr]. ring.
  - assert (E : forall t, ce_resid g false (upd e i t) old (V "n_moles") = ntot g (upd e i t) - upd e i t (V "n_moles")) by reflexivity.
    assert (D := dminus _ _ _ _ _ (ntot_derive e i) (is_derive_upd e i (V "n_moles"))).
    destruct Hi as [(k & Hk & ->)|[->|[->|[(k & Hk & ->)|[(k & Hk & ->)| ->]]]]].
    4: { left. eexists. split; [intros; unfold ce_jac; cbn [String.eqb Ascii.eqb Bool.eqb andb]; rewrite (ltb_t _ _ Hk); reflexivity|].
      eapply dl_ext; [exact E|]. apply is_derive_Reals. eapply is_derive_val; [exact D|]. rewrite nsum_ind1, ind_f by (auto; discriminate). cbn [ce_corr]. ring. }
    all: right; (split; [intros; reflexivity|]); (eapply dl_ext; [exact E|]); apply is_derive_Reals; (eapply is_derive_val; [exact D|]); rewrite nsum_ind01 by discriminate;
      rewrite ?ind_t; rewrite ?ind_f by discriminate; cbn [ce_corr]; ring.
Qed.
Lemma ce_value hist e o i : ce_dom e -> In o (outs (chem_eq g false)) -> In i (ins (chem_eq g false)) ->
  forall old, derivable_pt_lim (fun t => compute (chem_eq g false) (upd e i t) old o) (e i) (jac_after (chem_eq g false) hist e o i + ce_corr e o i).
Proof.
  intros Hd Ho Hi old. destruct (ce_core e old o i Hd Ho Hi) as [[v [Hv D]]|[Hc D]].
  - unfold jac_after. rewrite Hv. exact D.
  - unfold jac_after. rewrite Hc. replace (fold_left _ _ _ o i) with (jinit (decls (chem_eq g false)) o i); [exact D|].
    symmetry. apply (fold_skip (fun J e' => partials (chem_eq g false) e' J) (fun J : jac => J o i)). intros. apply Hc.
Qed.
End CE.
