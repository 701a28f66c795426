(* Thermodynamic meaning of the equilibrium response systems: algebra and calculus behind C23 and C24. *)
From Verif Require Import Lib_R Lib_Loop Model_Equil Proofs_Equil Proofs_Props.
From Coq Require Import Lia.
Open Scope string_scope. Open Scope list_scope. Open Scope R_scope.

Lemma nsum_S n f : nsum (S n) f = nsum n f + f n.
Proof. unfold nsum. rewrite seq_S, lsum_app. cbn [lsum]. rewrite Nat.add_0_l. ring. Qed.
Lemma nsum_zero n f : (forall j, (j < n)%nat -> f j = 0) -> nsum n f = 0.
Proof. intros H. unfold nsum. apply lsum_0. intros a Ha. apply H, in_seq0, Ha. Qed.

Section KER.
Variables (P E : nat) (a : nat -> nat -> R) (n b : nat -> R).
Hypothesis Hn : forall j, (j < P)%nat -> 0 < n j.
Hypothesis Hb : forall i, (i < E)%nat -> b i = nsum P (fun j => a i j * n j).
Let A i k := nsum P (fun j => a i j * a k j * n j).
Lemma quad d : nsum E (fun i => d i * nsum E (fun k => A i k * d k)) = nsum P (fun j => n j * nsum E (fun i => d i * a i j) ^ 2).
Proof.
  rewrite (nsum_ext E _ (fun i => nsum P (fun j => d i * a i j * n j * nsum E (fun k => d k * a k j)))).
  2: { intros i Hi. rewrite <- nsum_scal. rewrite (nsum_ext E _ (fun k => nsum P (fun j => d i * a i j * n j * (d k * a k j)))).
       - rewrite nsum_swap. apply nsum_ext. intros j Hj. rewrite nsum_scal. reflexivity.
       - intros k Hk. unfold A. rewrite <- (nsum_scal_r P (d k)), <- (nsum_scal P (d i)). apply nsum_ext. intros; ring. }
  rewrite nsum_swap. apply nsum_ext. intros j Hj. rewrite nsum_scal_r.
  rewrite (nsum_ext E (fun i => d i * a i j * n j) (fun i => n j * (d i * a i j))) by (intros; ring). rewrite nsum_scal. ring.
Qed.
Lemma ker d dl : (forall i, (i < E)%nat -> nsum E (fun k => A i k * d k) + b i * dl = 0) -> nsum E (fun k => b k * d k) = 0 ->
  (forall j, (j < P)%nat -> nsum E (fun i => d i * a i j) = 0) /\ ((exists i, (i < E)%nat /\ b i <> 0) -> dl = 0).
Proof.
  intros Hr Hl.
  assert (Z : forall j, (j < P)%nat -> nsum E (fun i => d i * a i j) = 0).
  { assert (Q : nsum P (fun j => n j * nsum E (fun i => d i * a i j) ^ 2) = 0).
    { rewrite <- quad. rewrite (nsum_ext E _ (fun i => - dl * (b i * d i))).
      - rewrite nsum_scal, Hl. ring.
      - intros i Hi. specialize (Hr i Hi). replace (nsum E (fun k => A i k * d k)) with (- (b i * dl)) by lra. ring. }
    intros j Hj. assert (G : (fun _ : nat => 0) j = n j * nsum E (fun i => d i * a i j) ^ 2).
    { apply (nsum_le_eq P (fun _ => 0) (fun j => n j * nsum E (fun i => d i * a i j) ^ 2)); auto.
      - intros j0 Hj0. apply Rmult_le_pos; [left; auto|apply pow2_ge_0].
      - rewrite Q. apply nsum_zero. auto. }
    cbv beta in G. specialize (Hn j Hj). destruct (Rmult_integral _ _ (eq_sym G)) as [K|K]; [lra|]. 
    destruct (Req_dec (nsum E (fun i => d i * a i j)) 0) as [|N]; [auto|]. exfalso. apply (pow_nonzero _ 2) in N. auto. }
  split; [exact Z|]. intros (i & Hi & Nb). specialize (Hr i Hi).
  replace (nsum E (fun k => A i k * d k)) with 0 in Hr.
  - destruct (Rmult_integral (b i) dl) as [K|K]; [lra|congruence|auto].
  - symmetry. unfold A. rewrite (nsum_ext E _ (fun k => nsum P (fun j => a i j * n j * (d k * a k j)))).
    + rewrite nsum_swap. apply nsum_zero. intros j Hj. rewrite nsum_scal, Z by auto. ring.
    + intros k Hk. rewrite <- nsum_scal_r. apply nsum_ext. intros; ring.
Qed.
(* the response of an equilibrium, in terms of any solutions x, y of the two systems *)
Variables (H nu lam x y : nat -> R) (N q tau pp xl yl : R).
Hypothesis HN : N = nsum P n.
Hypothesis F1 : forall j, (j < P)%nat -> - H j * tau + nu j + pp - q = nsum E (fun i => lam i * a i j).
Hypothesis F2 : forall i, (i < E)%nat -> nsum P (fun j => a i j * (n j * nu j)) = 0.
Hypothesis F3 : nsum P (fun j => n j * nu j) = N * q.
Hypothesis X1 : forall i, (i < E)%nat -> nsum E (fun k => A i k * x k) + b i * xl = nsum P (fun j => a i j * (n j * H j)).
Hypothesis X2 : nsum E (fun k => b k * x k) = nsum P (fun j => n j * H j).
Hypothesis Y1 : forall i, (i < E)%nat -> nsum E (fun k => A i k * y k) + b i * yl = b i.
Hypothesis Y2 : nsum E (fun k => b k * y k) = N.
Hypothesis Bne : exists i, (i < E)%nat /\ b i <> 0.
Lemma lam_row i : (i < E)%nat -> nsum E (fun k => A i k * lam k) + b i * q = - tau * nsum P (fun j => a i j * (n j * H j)) + pp * b i.
Proof.
  intros Hi. rewrite (nsum_ext E _ (fun k => nsum P (fun j => a i j * n j * (lam k * a k j)))) by (intros k Hk; unfold A; rewrite <- nsum_scal_r; apply nsum_ext; intros; ring).
  rewrite nsum_swap. rewrite (nsum_ext P _ (fun j => (a i j * (n j * nu j) + - tau * (a i j * (n j * H j))) + (pp - q) * (a i j * n j))).
  - rewrite !nsum_plus, !nsum_scal, F2 by auto. rewrite <- Hb by auto. ring.
  - intros j Hj. rewrite nsum_scal, <- F1 by auto. ring.
Qed.
Lemma lam_last : nsum E (fun k => b k * lam k) = - tau * nsum P (fun j => n j * H j) + pp * N.
Proof.
  rewrite (nsum_ext E _ (fun k => nsum P (fun j => n j * (lam k * a k j)))) by (intros k Hk; rewrite Hb by auto; rewrite <- nsum_scal_r; apply nsum_ext; intros; ring).
  rewrite nsum_swap. rewrite (nsum_ext P _ (fun j => (n j * nu j + - tau * (n j * H j)) + (pp - q) * n j)).
  - rewrite !nsum_plus, !nsum_scal, F3, <- HN. ring.
  - intros j Hj. rewrite nsum_scal, <- F1 by auto. ring.
Qed.
Lemma response : (forall j, (j < P)%nat -> nsum E (fun i => lam i * a i j) = - tau * nsum E (fun i => x i * a i j) + pp * nsum E (fun i => y i * a i j)) /\
  q = - tau * xl + pp * yl.
Proof.
  destruct (ker (fun k => lam k - (- tau * x k + pp * y k)) (q - (- tau * xl + pp * yl))) as [K1 K2].
  - intros i Hi. rewrite (nsum_ext E _ (fun k => A i k * lam k - (- tau * (A i k * x k) + pp * (A i k * y k)))) by (intros; ring).
    rewrite nsum_minus, nsum_plus, !nsum_scal. pose proof (lam_row i Hi). pose proof (X1 i Hi). pose proof (Y1 i Hi).
    set (s1 := nsum E (fun k => A i k * lam k)) in *. set (s2 := nsum E (fun k => A i k * x k)) in *. set (s3 := nsum E (fun k => A i k * y k)) in *.
    replace s1 with (- tau * nsum P (fun j => a i j * (n j * H j)) + pp * b i - b i * q) by lra.
    replace s2 with (nsum P (fun j => a i j * (n j * H j)) - b i * xl) by lra. replace s3 with (b i - b i * yl) by lra. ring.
  - rewrite (nsum_ext E _ (fun k => b k * lam k - (- tau * (b k * x k) + pp * (b k * y k)))) by (intros; ring).
    rewrite nsum_minus, nsum_plus, !nsum_scal, lam_last, X2, Y2. ring.
  - split; [|specialize (K2 Bne); lra]. intros j Hj. specialize (K1 j Hj).
    rewrite (nsum_ext E _ (fun i => lam i * a i j - (- tau * (x i * a i j) + pp * (y i * a i j)))) in K1 by (intros; ring).
    rewrite nsum_minus, nsum_plus, !nsum_scal in K1. lra.
Qed.
(* symmetry of the systems: the Maxwell relation *)
Lemma maxwell : nsum E (fun i => y i * nsum P (fun j => a i j * (n j * H j))) + yl * nsum P (fun j => n j * H j) - nsum P (fun j => n j * H j) = N * xl.
Proof.
  assert (S1 : nsum E (fun i => y i * nsum E (fun k => A i k * x k)) = nsum E (fun i => x i * nsum E (fun k => A i k * y k))).
  { rewrite (nsum_ext E _ (fun i => nsum E (fun k => y i * (A i k * x k)))) by (intros; rewrite nsum_scal; auto). rewrite nsum_swap.
    apply nsum_ext. intros i Hi. rewrite <- nsum_scal. apply nsum_ext. intros k Hk. unfold A. rewrite (nsum_ext P (fun j => a k j * a i j * n j) (fun j => a i j * a k j * n j)) by (intros; ring). ring. }
  rewrite (nsum_ext E _ (fun i => y i * nsum E (fun k => A i k * x k) + xl * (b i * y i))) by (intros i Hi; rewrite <- X1 by auto; ring).
  rewrite nsum_plus, nsum_scal, S1, Y2.
  rewrite (nsum_ext E _ (fun i => (1 - yl) * (b i * x i))).
  - rewrite nsum_scal, X2. ring.
  - intros i Hi. specialize (Y1 i Hi). replace (nsum E (fun k => A i k * y k)) with (b i - b i * yl) by lra. ring.
Qed.
Lemma enthalpy_response : nsum P (fun j => n j * H j * nu j) =
  tau * (nsum P (fun j => n j * H j * H j) - xl * nsum P (fun j => n j * H j) - nsum E (fun i => nsum P (fun j => a i j * (n j * H j)) * x i)) + pp * (N * xl).
Proof.
  destruct response as [R1 R2].
  rewrite (nsum_ext P _ (fun j => tau * (n j * H j * H j) + (q - pp) * (n j * H j) + - tau * nsum E (fun i => n j * H j * (x i * a i j)) + pp * nsum E (fun i => n j * H j * (y i * a i j)))).
  2: { intros j Hj. rewrite !nsum_scal. specialize (F1 j Hj). rewrite R1 in F1 by auto. replace (nu j) with (H j * tau - pp + q + (- tau * nsum E (fun i => x i * a i j) + pp * nsum E (fun i => y i * a i j))) by lra. ring. }
  rewrite !nsum_plus, !nsum_scal.
  rewrite (nsum_swap P E (fun j i => n j * H j * (x i * a i j))), (nsum_swap P E (fun j i => n j * H j * (y i * a i j))).
  rewrite (nsum_ext E (fun j => nsum P (fun i => n i * H i * (x j * a j i))) (fun i => nsum P (fun j => a i j * (n j * H j)) * x i)) by (intros; rewrite <- nsum_scal_r; apply nsum_ext; intros; ring).
  rewrite (nsum_ext E (fun j => nsum P (fun i => n i * H i * (y j * a j i))) (fun i => y i * nsum P (fun j => a i j * (n j * H j)))) by (intros; rewrite <- nsum_scal; apply nsum_ext; intros; ring).
  rewrite <- maxwell, R2. ring.
Qed.
End KER.

(* ---- paths of equilibrium states ---- *)
(* a converged equilibrium at positive pressure and mole numbers *)
Definition eq_state (g : gas) (e : env) : Prop :=
  0 < e (V "T") /\ 0 < e (V "P") /\ (forall j, (j < np g)%nat -> 0 < e (I "n" j)) /\ forall old o, In o (outs (chem_eq g false)) -> compute (chem_eq g false) e old o = 0.
(* a differentiable family of them, at fixed element composition; D gives the derivatives at s0 *)
Definition eq_path (g : gas) (Es : R -> env) (s0 : R) (D : var -> R) : Prop :=
  (exists eps : posreal, forall s, Rabs (s - s0) < eps -> eq_state g (Es s) /\ forall i, (i < ne g)%nat -> Es s (I "composition" i) = Es s0 (I "composition" i)) /\
  (forall v, In v ([V "T"; V "P"] ++ eq_n g ++ eq_pi g) -> derivable_pt_lim (fun s => Es s v) s0 (D v)).
(* result_T and result_P solve the systems PropsRHS assembles (what LinearSystemComp does) *)
Definition solves (g : gas) (e : env) : Prop :=
  let r := compute (props_rhs g) e (fun _ => 0) in forall i, (i <= ne g)%nat ->
    nsum (S (ne g)) (fun k => r (M "lhs_TP" i k) * e (I "result_T" k)) = r (I "rhs_T" i) /\
    nsum (S (ne g)) (fun k => r (M "lhs_TP" i k) * e (I "result_P" k)) = r (I "rhs_P" i).
(* enthalpy, entropy and heat capacity of every species belong together (C15) *)
Definition consistent_at (g : gas) (T : R) : Prop := forall j, (j < np g)%nat ->
  derivable_pt_lim (fun t => t * H0 g j t) T (Cp0 g j T) /\ derivable_pt_lim (S0 g j) T (Cp0 g j T / T).

Section PATH.
Variable g : gas.
Lemma eq_elem e : eq_state g e -> (forall i, (i < ne g)%nat -> e (I "composition" i) = nsum (np g) (fun j => aij g i j * e (I "n" j))).
Proof.
  intros (_ & _ & _ & H) i Hi. specialize (H (fun _ => 0) (I "pi" i)). cbn [chem_eq outs compute] in H. unfold ce_resid in H. cbn [String.eqb Ascii.eqb Bool.eqb andb] in H. rewrite (ltb_t _ _ Hi) in H.
  rewrite Rminus_diag_uniq with (r2 := e (I "composition" i)) (r1 := nsum (np g) (fun j => aij g i j * e (I "n" j))); [auto|]. apply H. rewrite !in_app_iff. right; left. apply in_map, in_seq0; auto.
Qed.
Lemma eq_moles e : eq_state g e -> e (V "n_moles") = ntot g e.
Proof.
  intros (_ & _ & _ & H). specialize (H (fun _ => 0) (V "n_moles")). cbn [chem_eq outs compute] in H. unfold ce_resid in H. cbn [String.eqb Ascii.eqb Bool.eqb andb] in H.
  symmetry. apply Rminus_diag_uniq, H. rewrite !in_app_iff. cbn [In]. auto.
Qed.
Lemma eq_mu e : eq_state g e -> forall j, (j < np g)%nat -> mu g e j = pi_a g e j.
Proof.
  intros (_ & HP & Hn & H) j Hj. specialize (H (fun _ => 0) (I "n" j)). cbn [chem_eq outs compute] in H. unfold ce_resid in H. cbn [String.eqb Ascii.eqb Bool.eqb andb] in H. rewrite (ltb_t _ _ Hj) in H.
  unfold ce_resid_n in H. cbn [andb] in H. assert (K : (mu g e j - pi_a g e j) * ce_weight g e j = 0) by (apply H; rewrite !in_app_iff; left; apply in_map, in_seq0; auto).
  assert (W : 0 < ce_weight g e j). { unfold ce_weight. apply weight_pos. apply Rmult_lt_0_compat; [auto|apply (ntot_pos g e j); auto]. }
  apply Rminus_diag_uniq. destruct (Rmult_integral _ _ K); [auto|lra].
Qed.
Lemma dcomp (f : R -> R) (h : R -> R) x df dh : is_derive f (h x) df -> is_derive h x dh -> is_derive (fun t => f (h t)) x (df * dh).
Proof. intros D1 D2. eapply is_derive_val; [apply (is_derive_comp f h); [exact D1|exact D2]|]. change (dh * df = df * dh). ring. Qed.
Lemma dzero (f : R -> R) x d : (exists eps : posreal, forall t, Rabs (t - x) < eps -> f t = 0) -> is_derive f x d -> d = 0.
Proof.
  intros He D. assert (D0 : is_derive f x 0) by (eapply dloc; [exact He|apply (dconst 0)]).
  rewrite <- (is_derive_unique _ _ _ D), <- (is_derive_unique _ _ _ D0). reflexivity.
Qed.
Lemma H0_deriv T j : consistent_at g T -> 0 < T -> (j < np g)%nat -> is_derive (H0 g j) T ((Cp0 g j T - H0 g j T) / T).
Proof.
  intros Hc HT Hj. destruct (Hc j Hj) as [D _]. apply is_derive_Reals in D.
  apply (dloc (H0 g j) (fun t => (t * H0 g j t) / t)).
  - exists (mkposreal T HT). intros t Ht. cbn [pos] in Ht. apply Rabs_def2 in Ht. field. lra.
  - assert (D1 : is_derive (fun t : R => t) T 1) by exact (is_derive_id T). eapply is_derive_val; [apply ddiv; [|exact D|exact D1]|]; [lra|]. cbv beta. field. lra.
Qed.
Variables (Es : R -> env) (s0 : R) (D : var -> R).
Hypothesis Hp : eq_path g Es s0 D.
Let e := Es s0.
Hypothesis Hc : consistent_at g (e (V "T")).
Hypothesis Hsol : solves g e.
Hypothesis Hbne : exists i, (i < ne g)%nat /\ e (I "composition" i) <> 0.
Let tau := D (V "T") / e (V "T").
Let pp := D (V "P") / e (V "P").
Let nu j := D (I "n" j) / e (I "n" j).
Let N := ntot g e.
Let q := nsum (np g) (fun j => D (I "n" j)) / N.
Lemma here : eq_state g e.
Proof. destruct Hp as [(eps & H) _]. apply (H s0). rewrite Rminus_eq_0, Rabs_R0. apply (cond_pos eps). Qed.
Lemma dT : is_derive (fun s => Es s (V "T")) s0 (D (V "T")). Proof. apply is_derive_Reals, (proj2 Hp). cbn; auto. Qed.
Lemma dP : is_derive (fun s => Es s (V "P")) s0 (D (V "P")). Proof. apply is_derive_Reals, (proj2 Hp). cbn; auto. Qed.
Lemma dn j : (j < np g)%nat -> is_derive (fun s => Es s (I "n" j)) s0 (D (I "n" j)).
Proof. intros. apply is_derive_Reals, (proj2 Hp). rewrite !in_app_iff. right; left. apply in_map, in_seq0; auto. Qed.
Lemma dpi i : (i < ne g)%nat -> is_derive (fun s => Es s (I "pi" i)) s0 (D (I "pi" i)).
Proof. intros. apply is_derive_Reals, (proj2 Hp). rewrite !in_app_iff. right; right. apply in_map, in_seq0; auto. Qed.
Lemma dN : is_derive (fun s => ntot g (Es s)) s0 (nsum (np g) (fun j => D (I "n" j))).
Proof. apply (is_derive_nsum (np g) (fun s j => Es s (I "n" j))). apply dn. Qed.
Lemma npos : (0 < np g)%nat.
Proof.
  destruct Hbne as (i & Hi & Hb). destruct (np g) eqn:Z; [|lia]. exfalso. apply Hb. rewrite (eq_elem e here i Hi), Z. reflexivity.
Qed.
Lemma Npos : 0 < N. Proof. apply (ntot_pos g e 0 npos), here. Qed.
Lemma n_nu j : (j < np g)%nat -> e (I "n" j) * nu j = D (I "n" j).
Proof. intros Hj. unfold nu. assert (0 < e (I "n" j)) by (apply here; auto). field. lra. Qed.
Lemma path_F1 j : (j < np g)%nat -> - H0 g j (e (V "T")) * tau + nu j + pp - q = nsum (ne g) (fun i => D (I "pi" i) * aij g i j).
Proof.
  intros Hj. assert (Hs := here). destruct Hs as (HT & HP & Hn & _). assert (HN := Npos). assert (Hr := pref_pos).
  apply Rminus_diag_uniq. eapply dzero; cycle 1.
  - eapply is_derive_val.
    + apply (dminus (fun s => H0 g j (Es s (V "T")) - S0 g j (Es s (V "T")) + ln (Es s (I "n" j)) + ln (Es s (V "P") / P_REF) - ln (ntot g (Es s))) (fun s => nsum (ne g) (fun i => Es s (I "pi" i) * aij g i j))).
      * apply dminus; [apply dplus; [apply dplus; [apply dminus|]|]|].
        -- apply (dcomp (H0 g j) (fun s => Es s (V "T"))); [apply H0_deriv; [exact Hc|exact HT|exact Hj]|apply dT].
        -- apply (dcomp (S0 g j) (fun s => Es s (V "T"))); [apply is_derive_Reals; exact (proj2 (Hc j Hj))|apply dT].
        -- apply (dln (fun s => Es s (I "n" j))); [apply Hn; auto|apply dn; auto].
        -- apply (dln (fun s => Es s (V "P") / P_REF)); [apply Rdiv_lt_0_compat; auto|]. apply (dscal (fun s => Es s (V "P"))), dP.
        -- apply (dln (fun s => ntot g (Es s))); [exact HN|apply dN].
      * apply (is_derive_nsum (ne g) (fun s i => Es s (I "pi" i) * aij g i j)). intros i Hi. apply (dscal (fun s => Es s (I "pi" i))), dpi; auto.
    + specialize (Hn j Hj). fold e. unfold tau, pp, nu, q. fold N. field. lra.
  - destruct Hp as [(eps & H) _]. exists eps. intros t Ht. destruct (H t Ht) as [K _]. assert (K2 := eq_mu _ K j Hj). destruct K as (_ & K & _).
    unfold mu in K2. rewrite ce_P_pos in K2 by auto. unfold pi_a in K2. lra.
Qed.
Lemma path_F2 i : (i < ne g)%nat -> nsum (np g) (fun j => aij g i j * (e (I "n" j) * nu j)) = 0.
Proof.
  intros Hi. rewrite (nsum_ext _ _ (fun j => aij g i j * D (I "n" j))) by (intros; rewrite n_nu; auto).
  eapply (dzero (fun s => nsum (np g) (fun j => aij g i j * Es s (I "n" j)) - e (I "composition" i))).
  - destruct Hp as [(eps & H) _]. exists eps. intros t Ht. destruct (H t Ht) as [K1 K2]. rewrite <- (eq_elem _ K1 i Hi). unfold e. rewrite K2 by auto. ring.
  - eapply is_derive_val; [apply dminus; [|apply dconst]|apply Rminus_0_r]. apply (is_derive_nsum (np g) (fun s j => aij g i j * Es s (I "n" j))). intros. apply dscal_l, dn; auto.
Qed.
Lemma path_F3 : nsum (np g) (fun j => e (I "n" j) * nu j) = N * q.
Proof. rewrite (nsum_ext _ _ (fun j => D (I "n" j))) by (intros; rewrite n_nu; auto). unfold q. field. apply Rgt_not_eq, Npos. Qed.
Let H j := H0 g j (e (V "T")).
Let n j := e (I "n" j).
Let b i := e (I "composition" i).
Let x k := e (I "result_T" k).
Let y k := e (I "result_P" k).
Lemma sys_rows i : (i < ne g)%nat ->
  nsum (ne g) (fun k => nsum (np g) (fun j => aij g i j * aij g k j * n j) * x k) + b i * x (ne g) = nsum (np g) (fun j => aij g i j * (n j * H j)) /\
  nsum (ne g) (fun k => nsum (np g) (fun j => aij g i j * aij g k j * n j) * y k) + b i * y (ne g) = b i.
Proof.
  intros Hi. assert (Hi' : (i <= ne g)%nat) by lia. destruct (Hsol i Hi') as [S1 S2]. rewrite nsum_S in S1, S2.
  cbn [props_rhs compute] in S1, S2. unfold rhs_compute in S1, S2. cbn [String.eqb Ascii.eqb Bool.eqb] in S1, S2.
  rewrite (ltb_t _ _ Hi) in S1, S2. rewrite Nat.ltb_irrefl, Nat.eqb_refl in S1, S2. cbn [andb] in S1, S2.
  replace (Nat.eqb i (ne g)) with false in S1, S2 by (symmetry; apply Nat.eqb_neq; lia). cbn [andb] in S1, S2.
  split.
  - unfold H, n, x. rewrite <- S1. f_equal. apply nsum_ext. intros k Hk. rewrite (ltb_t _ _ Hk). f_equal.
  - unfold b at 2. rewrite <- S2. f_equal. apply nsum_ext. intros k Hk. rewrite (ltb_t _ _ Hk). f_equal.
Qed.
Lemma sys_last : nsum (ne g) (fun k => b k * x k) = nsum (np g) (fun j => n j * H j) /\ nsum (ne g) (fun k => b k * y k) = N.
Proof.
  destruct (Hsol (ne g) (Nat.le_refl _)) as [S1 S2]. rewrite nsum_S in S1, S2.
  cbn [props_rhs compute] in S1, S2. unfold rhs_compute in S1, S2. cbn [String.eqb Ascii.eqb Bool.eqb] in S1, S2.
  rewrite !Nat.ltb_irrefl, !Nat.eqb_refl in S1, S2. cbn [andb] in S1, S2.
  split.
  - unfold n, H. rewrite <- S1. rewrite Rmult_0_l, Rplus_0_r. apply nsum_ext. intros k Hk. rewrite (ltb_t _ _ Hk). reflexivity.
  - unfold N. rewrite <- (eq_moles e here), <- S2. rewrite Rmult_0_l, Rplus_0_r. apply nsum_ext. intros k Hk. rewrite (ltb_t _ _ Hk). reflexivity.
Qed.
Lemma path_q : q = - tau * x (ne g) + pp * y (ne g).
Proof.
  destruct (response (np g) (ne g) (aij g) n b (fun j Hj => proj1 (proj2 (proj2 here)) j Hj) (eq_elem e here) H nu (fun i => D (I "pi" i)) x y N q tau pp (x (ne g)) (y (ne g))) as [_ R2]; auto.
  - apply path_F1.
  - apply path_F2.
  - apply path_F3.
  - intros; apply sys_rows; auto.
  - apply sys_last.
  - intros; apply sys_rows; auto.
  - apply sys_last.
Qed.
Lemma path_h : nsum (np g) (fun j => n j * H j * nu j) =
  tau * (nsum (np g) (fun j => n j * H j * H j) - x (ne g) * nsum (np g) (fun j => n j * H j) - nsum (ne g) (fun i => nsum (np g) (fun j => aij g i j * (n j * H j)) * x i)) + pp * (N * x (ne g)).
Proof.
  apply (enthalpy_response (np g) (ne g) (aij g) n b (fun j Hj => proj1 (proj2 (proj2 here)) j Hj) (eq_elem e here) H nu (fun i => D (I "pi" i)) x y N q tau pp (x (ne g)) (y (ne g))); auto.
  - apply path_F1.
  - apply path_F2.
  - apply path_F3.
  - intros; apply sys_rows; auto.
  - apply sys_last.
  - intros; apply sys_rows; auto.
  - apply sys_last.
Qed.
Lemma path_nuH : nsum (np g) (fun j => n j * H j * nu j) = tau * Cpe g e + pp * (N * x (ne g)).
Proof.
  rewrite path_h. f_equal. f_equal. unfold Cpe, nj_H0, h0, nj.
  rewrite (nsum_ext (ne g) (fun i => nsum (np g) (fun j => aij g i j * (e (I "n" j) * H0 g j (e (V "T")))) * e (I "result_T" i)) (fun i => nsum (np g) (fun j => aij g i j * (n j * H j)) * x i)) by (intros; reflexivity).
  change (nsum (np g) (fun j => e (I "n" j) * H0 g j (e (V "T")))) with (nsum (np g) (fun j => n j * H j)).
  change (nsum (np g) (fun j => e (I "n" j) * H0 g j (e (V "T")) * H0 g j (e (V "T")))) with (nsum (np g) (fun j => n j * H j * H j)). fold (x (ne g)). ring.
Qed.
Definition hS (o : string) (s : R) : R := compute (props_calcs g) (Es s) (fun _ => 0) (V o).
Lemma path_dh : is_derive (hS "h") s0 (e (V "T") * (pc_Cp g e * tau + R_ENG * N * x (ne g) * pp)).
Proof.
  assert (Hs := here). destruct Hs as (HT & HP & Hn & _).
  apply (is_derive_ext (fun s => nsum (np g) (fun j => Es s (I "n" j) * (Es s (V "T") * H0 g j (Es s (V "T")))) * R_ENG)).
  { intros s. unfold hS. cbn [props_calcs compute]. unfold calcs_compute; cbv zeta; vsimp. rewrite (Rmult_assoc _ R_ENG), (Rmult_comm R_ENG), <- Rmult_assoc. apply (f_equal (fun z => z * R_ENG)).
    rewrite <- nsum_scal_r. apply nsum_ext. intros; unfold nj_H0, nj, h0; ring. }
  eapply is_derive_val.
  - apply (dscal (fun s => nsum (np g) (fun j => Es s (I "n" j) * (Es s (V "T") * H0 g j (Es s (V "T")))))).
    apply (is_derive_nsum (np g) (fun s j => Es s (I "n" j) * (Es s (V "T") * H0 g j (Es s (V "T"))))). intros j Hj.
    apply dmul; [apply dn; auto|]. apply (dcomp (fun t => t * H0 g j t) (fun s => Es s (V "T"))); [apply is_derive_Reals; exact (proj1 (Hc j Hj))|apply dT].
  - cbv beta. fold e. unfold pc_Cp. rewrite (nsum_ext _ _ (fun j => e (V "T") * (n j * H j * nu j) + e (V "T") * tau * (nj e j * Cp0 g j (e (V "T"))))).
    + rewrite nsum_plus, !nsum_scal, path_nuH. unfold Cpf. ring.
    + intros j Hj. rewrite <- n_nu by auto. unfold n, H, nj, tau. field. lra.
Qed.
Lemma path_dS : is_derive (hS "S") s0 (pc_Cp g e * tau - R_ENG * N * (1 - x (ne g)) * pp).
Proof.
  assert (Hs := here). destruct Hs as (HT & HP & Hn & _). assert (HN := Npos). assert (Hr := pref_pos).
  apply (dloc (hS "S") (fun s => nsum (np g) (fun j => Es s (I "n" j) * (S0 g j (Es s (V "T")) + ln (ntot g (Es s) / Es s (I "n" j) / (Es s (V "P") / P_REF)))) * R_ENG)).
  { destruct Hp as [(eps & Hl) _]. exists eps. intros t Ht. destruct (Hl t Ht) as [K _]. unfold hS. cbn [props_calcs compute]. unfold calcs_compute; cbv zeta; vsimp. rewrite (eq_moles _ K). unfold nj. ring. }
  eapply is_derive_val.
  - apply (dscal (fun s => nsum (np g) (fun j => Es s (I "n" j) * (S0 g j (Es s (V "T")) + ln (ntot g (Es s) / Es s (I "n" j) / (Es s (V "P") / P_REF)))))).
    apply (is_derive_nsum (np g) (fun s j => Es s (I "n" j) * (S0 g j (Es s (V "T")) + ln (ntot g (Es s) / Es s (I "n" j) / (Es s (V "P") / P_REF))))). intros j Hj.
    apply dmul; [apply dn; auto|]. apply dplus; [apply (dcomp (S0 g j) (fun s => Es s (V "T"))); [apply is_derive_Reals; exact (proj2 (Hc j Hj))|apply dT]|].
    apply (dln (fun s => ntot g (Es s) / Es s (I "n" j) / (Es s (V "P") / P_REF))).
    + apply Rdiv_lt_0_compat; [apply Rdiv_lt_0_compat; [exact HN|apply Hn; auto]|apply Rdiv_lt_0_compat; auto].
    + apply ddiv; [apply Rgt_not_eq, Rdiv_lt_0_compat; auto| |apply (dscal (fun s => Es s (V "P"))), dP].
      apply ddiv; [apply Rgt_not_eq, Hn; auto|apply dN|apply dn; auto].
  - cbv beta. fold e. fold N.
    rewrite (nsum_ext _ _ (fun j => (n j * H j * nu j + tau * (nj e j * Cp0 g j (e (V "T"))) + - nsum (ne g) (fun i => (n j * nu j) * (e (I "pi" i) * aij g i j))) + ((q - pp) * n j - n j * nu j))).
    + rewrite !nsum_plus, nsum_minus, !nsum_scal, path_nuH. change (nsum (np g) (fun j => n j * nu j)) with (nsum (np g) (fun j => e (I "n" j) * nu j)). rewrite path_F3.
      replace (nsum (np g) (fun j => - nsum (ne g) (fun i => n j * nu j * (e (I "pi" i) * aij g i j)))) with 0.
      * change (nsum (np g) n) with N. unfold pc_Cp, Cpf. fold (nj e). ring.
      * rewrite (nsum_ext _ _ (fun j => -1 * nsum (ne g) (fun i => n j * nu j * (e (I "pi" i) * aij g i j)))) by (intros; ring). rewrite nsum_scal, nsum_swap.
        rewrite nsum_zero; [ring|]. intros i Hi. rewrite (nsum_ext _ _ (fun j => e (I "pi" i) * (aij g i j * (n j * nu j)))) by (intros; ring). rewrite nsum_scal, path_F2 by auto. ring.
    + intros j Hj. specialize (Hn j Hj). assert (M1 := eq_mu e here j Hj). unfold mu in M1. rewrite ce_P_pos in M1 by auto. fold N in M1. unfold pi_a in M1.
      rewrite nsum_scal. rewrite <- M1. rewrite !(ln_div (_ / _)); [|apply Rdiv_lt_0_compat; auto|apply Rdiv_lt_0_compat; auto]. rewrite (ln_div N); auto.
      rewrite <- (n_nu j Hj). unfold nj, n, H, tau, pp, q. change (ntot g e) with N.
      assert (EN : nsum (np g) (fun j => D (I "n" j)) = N * q) by (unfold q; field; lra). rewrite EN.
      assert (Eq : N * q / N = q) by (field; lra). rewrite Eq. field. lra.
Qed.
(* density: rho = 100 P / (N R T) *)
Lemma path_dlnrho : is_derive (fun s => ln (hS "rho" s)) s0 (pp - q - tau).
Proof.
  assert (Hs := here). destruct Hs as (HT & HP & Hn & _). assert (HN := Npos). assert (Hr := rsi_pos).
  assert (PN : 0 < ntot g (Es s0) * R_SI * Es s0 (V "T")) by (apply Rmult_lt_0_compat; [apply Rmult_lt_0_compat|]; auto).
  apply (dloc (fun s => ln (hS "rho" s)) (fun s => ln (Es s (V "P") / (ntot g (Es s) * R_SI * Es s (V "T")) * 100))).
  { destruct Hp as [(eps & Hl) _]. exists eps. intros t Ht. destruct (Hl t Ht) as [K _]. unfold hS. cbn [props_calcs compute]. unfold calcs_compute; cbv zeta; vsimp. rewrite (eq_moles _ K). reflexivity. }
  eapply is_derive_val.
  - apply (dln (fun s => Es s (V "P") / (ntot g (Es s) * R_SI * Es s (V "T")) * 100)).
    + apply Rmult_lt_0_compat; [apply Rdiv_lt_0_compat; auto|lra].
    + apply (dscal (fun s => Es s (V "P") / (ntot g (Es s) * R_SI * Es s (V "T")))). apply ddiv; [lra|apply dP|].
      apply dmul; [|apply dT]. apply (dscal (fun s => ntot g (Es s))), dN.
  - cbv beta. fold e. fold N. fold e in PN. fold N in PN. unfold pp, tau.
    assert (EN : nsum (np g) (fun j => D (I "n" j)) = N * q) by (unfold q; field; lra). rewrite EN. field. repeat split; lra.
Qed.
End PATH.
