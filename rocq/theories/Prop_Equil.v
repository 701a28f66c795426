(* Claims C21-C24: chemical equilibrium and the properties of the equilibrium mixture. *)
From Verif Require Import Lib_R Lib_Loop Model_Species Proofs_Species Prop_Species Model_Equil Proofs_Equil Proofs_Props Proofs_Thermo.
From Coq Require Import Lia FunctionalExtensionality.
Open Scope string_scope. Open Scope list_scope. Open Scope R_scope.

(* A converged solve: every residual is zero (at positive pressure and mole numbers). *)
Definition solved (g : gas) (remove : bool) (e : env) : Prop :=
  0 < e (V "P") /\ (forall j, (j < np g)%nat -> 0 < e (I "n" j)) /\
  forall old o, In o (outs (chem_eq g remove)) -> compute (chem_eq g remove) e old o = 0.
(* a species the solver no longer updates *)
Definition traced (remove : bool) (e : env) (j : nat) : Prop := remove = true /\ e (I "n" j) <= / 10 ^ 10 + / 10 ^ 20.
(* chemical potential of species j over R T, at mole numbers m *)
Definition chem_pot (g : gas) (T P : R) (m : nat -> R) (j : nat) : R :=
  H0 g j T - S0 g j T + ln (m j) - ln (nsum (np g) m) + ln (P / (101325 / 100000)).
(* Gibbs energy over R T *)
Definition gibbs (g : gas) (T P : R) (m : nat -> R) : R := nsum (np g) (fun j => m j * chem_pot g T P m j).

(* ---------- C21 ---------- *)
Theorem C21_equilibrium (g : gas) (remove : bool) (e : env) : solved g remove e ->
  (forall i, (i < ne g)%nat -> nsum (np g) (fun j => aij g i j * e (I "n" j)) = e (I "composition" i)) /\
  e (V "n_moles") = nsum (np g) (fun j => e (I "n" j)) /\
  (forall j, (j < np g)%nat -> ~ traced remove e j ->
     chem_pot g (e (V "T")) (e (V "P")) (fun j => e (I "n" j)) j = nsum (ne g) (fun i => e (I "pi" i) * aij g i j)).
Proof.
  intros (HP & Hn & H). split; [|split].
  - intros i Hi. specialize (H (fun _ => 0) (I "pi" i)). cbn [chem_eq outs compute] in H. unfold ce_resid in H. cbn [String.eqb Ascii.eqb Bool.eqb andb] in H. rewrite (ltb_t _ _ Hi) in H.
    apply Rminus_diag_uniq, H. rewrite !in_app_iff. right; left. apply in_map, in_seq0; auto.
  - specialize (H (fun _ => 0) (V "n_moles")). cbn [chem_eq outs compute] in H. unfold ce_resid in H. cbn [String.eqb Ascii.eqb Bool.eqb andb] in H.
    symmetry. apply Rminus_diag_uniq, H. rewrite !in_app_iff. cbn [In]. auto.
  - intros j Hj Ht. specialize (H (fun _ => 0) (I "n" j)). cbn [chem_eq outs compute] in H. unfold ce_resid in H. cbn [String.eqb Ascii.eqb Bool.eqb andb] in H. rewrite (ltb_t _ _ Hj) in H.
    assert (K : ce_resid_n g remove e j = 0) by (apply H; rewrite !in_app_iff; left; apply in_map, in_seq0; auto). unfold ce_resid_n in K.
    replace (remove && is_trace e j)%bool with false in K.
    + assert (W : 0 < ce_weight g e j). { unfold ce_weight. apply weight_pos. apply Rmult_lt_0_compat; [auto|apply (ntot_pos g e j); auto]. }
      destruct (Rmult_integral _ _ K) as [K1|K1]; [|lra]. unfold mu in K1. rewrite ce_P_pos in K1 by auto. unfold pi_a, ntot in K1. unfold chem_pot. fold P_REF. lra.
    + symmetry. destruct remove; [|reflexivity]. cbn [andb]. unfold is_trace. destruct (Rle_dec _ _) as [L|]; [|reflexivity]. exfalso. apply Ht. split; auto.
Qed.
(* The Gibbs energy of a converged mixture is the least among all mixtures with the same elements (which leave the species the
   solver dropped, if any, as they are), and only a mixture of the same proportions reaches it. *)
Theorem C21_gibbs_minimum (g : gas) (remove : bool) (e : env) (m : nat -> R) : solved g remove e ->
  (forall j, (j < np g)%nat -> 0 <= m j) -> 0 < nsum (np g) m ->
  (forall i, (i < ne g)%nat -> nsum (np g) (fun j => aij g i j * m j) = e (I "composition" i)) ->
  (forall j, (j < np g)%nat -> traced remove e j -> m j = e (I "n" j)) ->
  let n := fun j => e (I "n" j) in let G := gibbs g (e (V "T")) (e (V "P")) in
  G n <= G m /\ (G m = G n -> forall j, (j < np g)%nat -> m j / nsum (np g) m = n j / nsum (np g) n).
Proof.
  intros Hs Hm HM Hel Htr n G. destruct (C21_equilibrium g remove e Hs) as (E1 & E2 & E3). destruct Hs as (HP & Hn & _).
  assert (Np : (0 < np g)%nat). { destruct (np g); [unfold nsum in HM; cbn in HM; lra|lia]. }
  assert (HN : 0 < nsum (np g) n) by (apply nsum_pos; auto).
  set (N := nsum (np g) n) in *. set (M := nsum (np g) m) in *.
  set (cp := chem_pot g (e (V "T")) (e (V "P")) n).
  assert (Lin : nsum (np g) (fun j => m j * cp j) = nsum (np g) (fun j => n j * cp j)).
  { apply Rminus_diag_uniq. rewrite <- nsum_minus.
    rewrite (nsum_ext _ _ (fun j => nsum (ne g) (fun i => e (I "pi" i) * (aij g i j * m j - aij g i j * n j)))).
    - rewrite nsum_swap. apply nsum_zero. intros i Hi. rewrite nsum_scal, nsum_minus, Hel by auto. unfold n. rewrite (E1 i Hi). ring.
    - intros j Hj. destruct (Req_dec (m j) (n j)) as [Q|Q].
      + rewrite Q. rewrite nsum_zero; [ring|]. intros; ring.
      + unfold cp, n. rewrite E3 by (auto; intros T; apply Q; apply Htr; auto).
        rewrite (nsum_ext (ne g) (fun i => e (I "pi" i) * (aij g i j * m j - aij g i j * e (I "n" j))) (fun i => (m j - e (I "n" j)) * (e (I "pi" i) * aij g i j))) by (intros; ring).
        rewrite nsum_scal. ring. }
  assert (GN : G n = nsum (np g) (fun j => m j * cp j)) by (rewrite Lin; reflexivity).
  assert (GM : G m - G n = - nsum (np g) (fun j => m j * (ln (n j) - ln N) - m j * (ln (m j) - ln M))).
  { rewrite GN. unfold G, gibbs. rewrite <- nsum_minus. replace (- nsum (np g) (fun j => m j * (ln (n j) - ln N) - m j * (ln (m j) - ln M))) with (-1 * nsum (np g) (fun j => m j * (ln (n j) - ln N) - m j * (ln (m j) - ln M))) by ring.
    rewrite <- nsum_scal. apply nsum_ext. intros j Hj. unfold cp, chem_pot. fold M N. ring. }
  assert (B0 : nsum (np g) (fun j => M * n j / N - m j) = 0).
  { rewrite nsum_minus. fold M. rewrite (nsum_ext _ _ (fun j => M / N * n j)) by (intros; field; lra). rewrite nsum_scal. fold N. field. lra. }
  assert (RT : forall j, (j < np g)%nat -> m j * (ln (n j) - ln N) - m j * (ln (m j) - ln M) <= M * n j / N - m j).
  { intros j Hj. apply rel_term; auto. apply Hn; auto. }
  split.
  - assert (nsum (np g) (fun j => m j * (ln (n j) - ln N) - m j * (ln (m j) - ln M)) <= nsum (np g) (fun j => M * n j / N - m j)) by (apply nsum_le; auto). lra.
  - intros Q j Hj. apply rel_term_eq; auto; [apply Hn; auto|].
    apply (nsum_le_eq (np g) (fun j => m j * (ln (n j) - ln N) - m j * (ln (m j) - ln M)) (fun j => M * n j / N - m j)); auto. lra.
Qed.
(* so the converged mixture is the only one: whatever the starting guess, two converged solves agree *)
Theorem C21_unique (g : gas) (e e' : env) : solved g false e -> solved g false e' ->
  e (V "T") = e' (V "T") -> e (V "P") = e' (V "P") -> (forall i, (i < ne g)%nat -> e (I "composition" i) = e' (I "composition" i)) ->
  (exists i, (i < ne g)%nat /\ e (I "composition" i) <> 0) ->
  (forall j, (j < np g)%nat -> e (I "n" j) = e' (I "n" j)) /\ e (V "n_moles") = e' (V "n_moles").
Proof.
  intros H1 H2 ET EP EC (i0 & Hi0 & Nz).
  destruct (C21_equilibrium g false e H1) as (E1 & E2 & _). destruct (C21_equilibrium g false e' H2) as (F1 & F2 & _).
  set (n := fun j => e (I "n" j)) in *. set (n' := fun j => e' (I "n" j)) in *.
  assert (Np : (0 < np g)%nat). { destruct (np g) eqn:Z; [|lia]. exfalso. apply Nz. rewrite <- E1 by auto. reflexivity. }
  assert (P1 : forall j, (j < np g)%nat -> 0 < n j) by (intros; apply H1; auto). assert (P2 : forall j, (j < np g)%nat -> 0 < n' j) by (intros; apply H2; auto).
  assert (S1 : 0 < nsum (np g) n) by (apply nsum_pos; auto). assert (S2 : 0 < nsum (np g) n') by (apply nsum_pos; auto).
  assert (Pf : forall j, (j < np g)%nat -> n' j / nsum (np g) n' = n j / nsum (np g) n).
  { assert (T0 : forall b (x : env) j, traced false x j -> b) by (intros b x j [Q _]; discriminate Q).
    destruct (C21_gibbs_minimum g false e n' H1) as [G1 G2]; [intros; left; auto|auto|intros; rewrite EC by auto; apply F1; auto|intros j Hj Q; destruct Q; discriminate|].
    destruct (C21_gibbs_minimum g false e' n H2) as [G3 _]; [intros; left; auto|auto|intros; rewrite <- EC by auto; apply E1; auto|intros j Hj Q; destruct Q; discriminate|].
    apply G2. cbv zeta in G1, G3. rewrite <- ET, <- EP in G3. apply Rle_antisym; auto. }
  assert (SN : nsum (np g) n' = nsum (np g) n).
  { assert (A1 := E1 i0 Hi0). assert (A2 := F1 i0 Hi0). rewrite <- EC in A2 by auto.
    assert (Q : nsum (np g) (fun j => aij g i0 j * n' j) = nsum (np g) n' / nsum (np g) n * nsum (np g) (fun j => aij g i0 j * n j)).
    { rewrite <- nsum_scal. apply nsum_ext. intros j Hj. assert (K := Pf j Hj). replace (n' j) with (n' j / nsum (np g) n' * nsum (np g) n') by (field; lra). rewrite K. field. lra. }
    change (nsum (np g) (fun j => aij g i0 j * n j) = e (I "composition" i0)) in A1. change (nsum (np g) (fun j => aij g i0 j * n' j) = e (I "composition" i0)) in A2. rewrite A1, A2 in Q.
    assert (R1 : nsum (np g) n' / nsum (np g) n = 1). { apply (Rmult_eq_reg_r (e (I "composition" i0))); [lra|auto]. }
    replace (nsum (np g) n') with (nsum (np g) n' / nsum (np g) n * nsum (np g) n) by (field; lra). rewrite R1. ring. }
  split.
  - intros j Hj. assert (K := Pf j Hj). rewrite SN in K. fold (n j) (n' j). apply (Rmult_eq_reg_r (/ nsum (np g) n)); [|apply Rinv_neq_0_compat; lra]. unfold Rdiv in K. auto.
  - rewrite E2, F2. fold n n'. auto.
Qed.
(* starting a solve never leaves a negative mole number *)
Theorem C21_guess (g : gas) (norm : R) (n : nat -> R) j : (j < np g)%nat -> 0 <= ce_guess g norm n j.
Proof.
  intros Hj. assert (I0 : 0 <= n_init g). { unfold n_init. assert (0 < INR (np g)) by (apply lt_0_INR; lia). apply Rlt_le. unfold Rdiv. apply Rmult_lt_0_compat; [apply Rmult_lt_0_compat; [lra|apply Rinv_0_lt_compat; auto]|lra]. }
  unfold ce_guess. destruct (Rlt_dec _ _); auto. destruct (Req_EM_T _ _); auto. destruct (existsb _ _) eqn:X; auto.
  apply Rnot_lt_le. intros L. assert (Y : existsb (fun j => if Rlt_dec (n j) 0 then true else false) (seq 0 (np g)) = true); [|congruence].
  apply existsb_exists. exists j. split; [apply in_seq0; auto|]. destruct (Rlt_dec _ _); auto.
Qed.

(* A reacting example, 2 A <-> A2 (one element, two species), used below: A holds 1 atom, A2 holds 2. *)
Definition gx : gas := mkGas 2 1 (fun _ j => INR j + 1) (fun j _ => INR j + 1) (fun j T => (INR j + 1) * ln T) (fun j _ => INR j + 1)
  (fun _ _ => 0) (fun j T => (INR j + 1) / T) (fun _ _ => 0).
(* equilibrium states with n_A = s, n_A2 = (3 - s) / 2, at T = 1 *)
Definition ex (s : R) : env := fun v => match v with
  | V "T" => 1 | V "P" => P_REF * ((9 - s ^ 2) / (4 * s ^ 2)) | V "n_moles" => (3 + s) / 2
  | I "n" 0%nat => s | I "n" 1%nat => (3 - s) / 2 | I "composition" 0%nat => 3 | I "pi" 0%nat => 1 + ln ((3 - s) / 2) - ln s
  | I "result_T" 0%nat => 1 | I "result_P" 0%nat => 2 / 3 | I "result_P" 1%nat => - (1 / 9) | _ => 0 end.
Lemma ex_sum f : nsum 2 f = f 0%nat + f 1%nat. Proof. intros. unfold nsum. cbn [seq lsum]. ring. Qed.
Lemma ex_sum1 f : nsum 1 f = f 0%nat. Proof. intros. unfold nsum. cbn [seq lsum]. ring. Qed.
Lemma lt2 j : (j < 2)%nat -> j = 0%nat \/ j = 1%nat. Proof. lia. Qed.
Lemma lt1 j : (j < 1)%nat -> j = 0%nat. Proof. lia. Qed.
Lemma ex_P s : 0 < s < 3 -> 0 < (9 - s ^ 2) / (4 * s ^ 2).
Proof. intros H. apply Rdiv_lt_0_compat; nra. Qed.
Lemma ex_mu s j : 0 < s < 3 -> (j < 2)%nat -> mu gx (ex s) j = pi_a gx (ex s) j.
Proof.
  intros Hs Hj. assert (HP := ex_P s Hs). assert (Hr := pref_pos). unfold mu. rewrite ce_P_pos by (apply Rmult_lt_0_compat; auto).
  assert (N : ntot gx (ex s) = (3 + s) / 2) by (unfold ntot; cbn [np gx]; rewrite ex_sum; cbn [ex]; lra). rewrite N.
  unfold pi_a. cbn [ne gx]. rewrite ex_sum1. cbn [H0 S0 aij gx]. replace (ex s (V "T")) with 1 by reflexivity. rewrite ln_1.
  replace (ex s (V "P") / P_REF) with ((3 - s) / 2 * ((3 + s) / 2) / (s * s)) by (cbn [ex]; field; lra).
  rewrite ln_div; [|apply Rmult_lt_0_compat; lra|nra]. rewrite !ln_mult by lra.
  destruct (lt2 j Hj) as [-> | ->]; cbn [ex INR]; lra.
Qed.
Lemma ex_solved s : 0 < s < 3 -> solved gx false (ex s).
Proof.
  intros Hs. assert (HP := ex_P s Hs). assert (Hr := pref_pos). split; [apply Rmult_lt_0_compat; auto|]. split.
  - intros j Hj. destruct (lt2 j Hj) as [-> | ->]; cbn [ex]; lra.
  - intros old o Ho. apply ce_outs_inv in Ho as [(j & Hj & ->)|[(j & Hj & ->)| ->]]; cbn [chem_eq compute]; unfold ce_resid; cbn [String.eqb Ascii.eqb Bool.eqb andb].
    + rewrite (ltb_t _ _ Hj). unfold ce_resid_n. cbn [andb]. rewrite ex_mu by auto. ring.
    + rewrite (ltb_t _ _ Hj). pose proof (lt1 j Hj) as ->. cbn [np gx]. rewrite ex_sum. cbn [aij gx ex INR]. lra.
    + unfold ntot. cbn [np gx]. rewrite ex_sum. cbn [ex]. lra.
Qed.
Example C21_nonvacuous : solved gx false (ex 1) /\ ex 1 (I "composition" 0) <> 0 /\ (np gx = 2 /\ ne gx = 1)%nat.
Proof. split; [apply ex_solved; lra|]. cbn [ex]. split; [lra|auto]. Qed.

(* ---------- C22 ---------- *)
(* both indices are mole numbers *)
Definition nn_pair (o i : var) : Prop := exists j k, o = I "n" j /\ i = I "n" k.
Definition eq_dom (g : gas) (e : env) : Prop := 0 < e (V "P") /\ (forall j, (j < np g)%nat -> 0 < e (I "n" j)) /\ smooth_at g (e (V "T")).
Lemma corr_0 g e o i : ~ nn_pair o i -> ce_corr g e o i = 0.
Proof.
  intros H. destruct o as [s|s j|u s|s a b]; try reflexivity. destruct i as [t|t k|u t|t a b]; try reflexivity. unfold ce_corr.
  destruct (String.eqb_spec s "n") as [->|]; [|reflexivity]. destruct (String.eqb_spec t "n") as [->|]; [|reflexivity]. exfalso. apply H. exists j, k. auto.
Qed.
(* every entry but those of the mole balances with respect to the mole numbers, at every point *)
Theorem C22_jacobian_partial (g : gas) : jac_exact_on (chem_eq g false) (eq_dom g) (fun o i => ~ nn_pair o i).
Proof. intros hist e old o i Hd Ho Hi Hs. pose proof (ce_value g hist e o i Hd Ho Hi old) as H. rewrite corr_0 in H by auto. rewrite Rplus_0_r in H. exact H. Qed.
(* all of them wherever the mole balances hold, as they do at a solution *)
Theorem C22_jacobian_at_solution (g : gas) :
  jac_exact (chem_eq g false) (fun e => eq_dom g e /\ forall old j, (j < np g)%nat -> compute (chem_eq g false) e old (I "n" j) = 0).
Proof.
  intros hist e old o i [Hd Hz] Ho Hi. pose proof (ce_value g hist e o i Hd Ho Hi old) as H. replace (ce_corr g e o i) with 0 in H; [rewrite Rplus_0_r in H; exact H|].
  symmetry. apply ce_outs_inv in Ho as [(j & Hj & ->)|[(j & Hj & ->)| ->]]; [|apply corr_0; intros (a & b & Q & _); discriminate|apply corr_0; intros (a & b & Q & _); discriminate].
  specialize (Hz old j Hj). cbn [chem_eq compute] in Hz. unfold ce_resid in Hz. cbn [String.eqb Ascii.eqb Bool.eqb andb] in Hz. rewrite (ltb_t _ _ Hj) in Hz. unfold ce_resid_n in Hz. cbn [andb] in Hz.
  assert (W : 0 < ce_weight g e j). { unfold ce_weight. apply weight_pos. apply Rmult_lt_0_compat; [apply Hd; auto|apply (ntot_pos g e j); auto; apply Hd]. }
  assert (U : und g e j = 0) by (destruct (Rmult_integral _ _ Hz); [auto|lra]).
  unfold ce_corr. destruct i; try reflexivity. destruct (_ && _)%bool; [|reflexivity]. rewrite U. ring.
Qed.
(* and only there: elsewhere the damping factor's own dependence on the mole numbers is missing *)
Theorem C22_jacobian_elsewhere_refuted (g : gas) hist e old j k : eq_dom g e -> (j < np g)%nat -> (k < np g)%nat ->
  (derivable_pt_lim (fun t => compute (chem_eq g false) (upd e (I "n" k) t) old (I "n" j)) (e (I "n" k)) (jac_after (chem_eq g false) hist e (I "n" j) (I "n" k)) <->
   compute (chem_eq g false) e old (I "n" j) = 0).
Proof.
  intros Hd Hj Hk.
  assert (Ho : In (I "n" j) (outs (chem_eq g false))) by (cbn [chem_eq outs]; rewrite !in_app_iff; left; apply in_map, in_seq0; auto).
  assert (Hi : In (I "n" k) (ins (chem_eq g false))) by (cbn [chem_eq ins]; rewrite !in_app_iff; right; right; left; apply in_map, in_seq0; auto).
  pose proof (ce_value g hist e _ _ Hd Ho Hi old) as H.
  assert (HN : 0 < ntot g e) by (apply (ntot_pos g e j); auto; apply Hd). assert (Hn : 0 < e (I "n" j)) by (apply Hd; auto).
  assert (E : compute (chem_eq g false) e old (I "n" j) = und g e j * ce_weight g e j).
  { cbn [chem_eq compute]. unfold ce_resid. cbn [String.eqb Ascii.eqb Bool.eqb andb]. rewrite (ltb_t _ _ Hj). reflexivity. }
  assert (W : 0 < ce_weight g e j) by (unfold ce_weight; apply weight_pos, Rmult_lt_0_compat; auto).
  rewrite E. unfold ce_corr in H. cbn [String.eqb Ascii.eqb Bool.eqb andb] in H. split.
  - intros D. pose proof (uniqueness_limite _ _ _ _ D H) as Q.
    assert (Z : und g e j * (dweight (e (I "n" j) * ntot g e) * (ind (I "n" k) (I "n" j) * ntot g e + e (I "n" j))) = 0) by lra.
    destruct (Rmult_integral _ _ Z) as [Z1|Z1]; [rewrite Z1; ring|]. exfalso. assert (Wp := dweight_pos (e (I "n" j) * ntot g e)).
    assert (0 <= ind (I "n" k) (I "n" j)) by (unfold ind; destruct (var_eq_dec _ _); lra).
    assert (0 < ind (I "n" k) (I "n" j) * ntot g e + e (I "n" j)) by nra. assert (0 < dweight (e (I "n" j) * ntot g e) * (ind (I "n" k) (I "n" j) * ntot g e + e (I "n" j))) by (apply Rmult_lt_0_compat; auto). lra.
  - intros Z. assert (U : und g e j = 0) by (destruct (Rmult_integral _ _ Z); [auto|lra]). rewrite U, Rmult_0_l, Rplus_0_r in H. exact H.
Qed.
(* once trace species may be dropped: unchanged as long as there is none *)
Definition none_traced (g : gas) (e : env) : Prop := forall j, (j < np g)%nat -> / 10 ^ 10 + / 10 ^ 20 < e (I "n" j).
Lemma not_trace e j : / 10 ^ 10 + / 10 ^ 20 < e (I "n" j) -> is_trace e j = false.
Proof. intros H. unfold is_trace, MIN_CONC. destruct (Rle_dec _ _) as [L|]; [|reflexivity]. exfalso. exact (Rlt_irrefl _ (Rlt_le_trans _ _ _ H L)). Qed.
Lemma tiny_pos : 0 < / 10 ^ 20. Proof. apply Rinv_0_lt_compat, pow_lt. lra. Qed.
Lemma tiny10_pos : 0 < / 10 ^ 10. Proof. apply Rinv_0_lt_compat, pow_lt. lra. Qed.
Lemma partials_no_trace g e J o i : none_traced g e -> partials (chem_eq g true) e J o i = partials (chem_eq g false) e J o i.
Proof.
  intros Hn. cbn [chem_eq partials]. unfold ce_jac. destruct o as [so|so j|u so|so a b]; try reflexivity.
  destruct (String.eqb so "n") eqn:E1; [|reflexivity]. destruct (Nat.ltb_spec j (np g)) as [Lj|Lj]; [|reflexivity]. cbn [andb].
  assert (T1 : is_trace e j = false) by (apply not_trace; auto).
  assert (T2 : (if Rle_dec (e (I "n" j)) MIN_CONC then true else false) = false).
  { destruct (Rle_dec _ _) as [L|]; [|reflexivity]. exfalso. unfold MIN_CONC in L. pose proof (Hn j Lj) as Q. pose proof tiny_pos as Q2.
    apply (Rlt_irrefl (e (I "n" j))). eapply Rle_lt_trans; [exact L|]. eapply Rlt_trans; [|exact Q]. rewrite <- (Rplus_0_r (/ 10 ^ 10)) at 1. apply Rplus_lt_compat_l. exact Q2. }
  rewrite T1, T2. destruct i as [s|s k|u s|s a b]; try reflexivity. destruct (String.eqb s "n") eqn:E2; cbn [andb]; [|reflexivity].
  destruct (Nat.ltb_spec k (np g)) as [Lk|Lk]; [|reflexivity]. rewrite not_trace by auto. reflexivity.
Qed.
Lemma keep_gt (e : env) i x c : c < e x -> exists d : posreal, forall t, Rabs (t - e i) < d -> c < upd e i t x.
Proof.
  intros H. destruct (var_eq_dec i x) as [->|N].
  - destruct (near_gt _ _ H) as [d Hd]. exists d. intros t Ht. rewrite upd_eq. auto.
  - exists (mkposreal 1 Rlt_0_1). intros t _. rewrite upd_neq; auto.
Qed.
Theorem C22_trace_on_partial (g : gas) hist e old o i : eq_dom g e -> none_traced g e -> In o (outs (chem_eq g true)) -> In i (ins (chem_eq g true)) -> ~ nn_pair o i ->
  (forall h, In h hist -> none_traced g h) ->
  derivable_pt_lim (fun t => compute (chem_eq g true) (upd e i t) old o) (e i) (jac_after (chem_eq g true) hist e o i).
Proof.
  intros Hd Hn Ho Hi Hs Hh.
  assert (EJ : jac_after (chem_eq g true) hist e o i = jac_after (chem_eq g false) hist e o i).
  { unfold jac_after. rewrite partials_no_trace by auto. f_equal.
    assert (X : forall l J, (forall h, In h l -> none_traced g h) -> fold_left (fun J e' => partials (chem_eq g true) e' J) l J = fold_left (fun J e' => partials (chem_eq g false) e' J) l J).
    { induction l as [|h l' IH]; intros J Hl; [reflexivity|]. cbn [fold_left]. rewrite IH by (intros; apply Hl; right; auto). f_equal.
      apply functional_extensionality; intros o'. apply functional_extensionality; intros i'. apply partials_no_trace, Hl. left; auto. }
    apply X; auto. }
  rewrite EJ. apply (dl_local _ (fun t => compute (chem_eq g false) (upd e i t) old o)); [|apply C22_jacobian_partial; auto].
  assert (K : exists d : posreal, forall t, Rabs (t - e i) < d -> compute (chem_eq g true) (upd e i t) old o = compute (chem_eq g false) (upd e i t) old o); [|destruct K as [d K]; exists d; intros; apply K; auto].
  apply ce_outs_inv in Ho as [(j & Hj & ->)|[(j & Hj & ->)| ->]].
  - destruct (keep_gt e i (I "n" j) _ (Hn j Hj)) as [d K]. exists d. intros t Ht. cbn [chem_eq compute]. unfold ce_resid. cbn [String.eqb Ascii.eqb Bool.eqb andb]. rewrite (ltb_t _ _ Hj).
    unfold ce_resid_n. rewrite (not_trace (upd e i t)) by (apply K; auto). reflexivity.
  - exists (mkposreal 1 Rlt_0_1). intros; reflexivity.
  - exists (mkposreal 1 Rlt_0_1). intros; reflexivity.
Qed.
(* for a dropped species the stored diagonal entry is 1, although its residual is identically 0 around the point *)
Theorem C22_trace_entry_refuted (g : gas) hist e old j : (j < np g)%nat -> e (I "n" j) < / 10 ^ 10 + / 10 ^ 20 ->
  jac_after (chem_eq g true) hist e (I "n" j) (I "n" j) = 1 /\
  derivable_pt_lim (fun t => compute (chem_eq g true) (upd e (I "n" j) t) old (I "n" j)) (e (I "n" j)) 0.
Proof.
  intros Hj L. assert (TR : forall x : env, x (I "n" j) < / 10 ^ 10 + / 10 ^ 20 -> is_trace x j = true).
  { intros x Hx. unfold is_trace, MIN_CONC. destruct (Rle_dec _ _) as [|N]; [reflexivity|]. exfalso. apply N. left. exact Hx. }
  split.
  - unfold jac_after. cbn [chem_eq partials]. unfold ce_jac. cbn [String.eqb Ascii.eqb Bool.eqb andb]. rewrite (ltb_t _ _ Hj), TR, Nat.eqb_refl by auto. reflexivity.
  - apply (dl_local _ (fun _ => 0)); [|apply derivable_pt_lim_const]. destruct (near_lt _ _ L) as [d K]. exists d. intros t Ht. cbn [chem_eq compute]. unfold ce_resid. cbn [String.eqb Ascii.eqb Bool.eqb andb].
    rewrite (ltb_t _ _ Hj). unfold ce_resid_n. rewrite TR by (rewrite upd_eq; apply K; auto). reflexivity.
Qed.
(* linearize raises AttributeError exactly when nothing was evaluated yet, or the last evaluation is the first one whose mole
   balances are below 1e-4: the switch to dropping species is set one evaluation before the mask it needs *)
Definition small (g : gas) (e : env) : Prop := sqrt (nsum (np g) (fun j => ((mu g e j - pi_a g e j) * ce_weight g e j) ^ 2)) < / 10 ^ 4.
Lemma norm_false g e : ce_norm g e false = sqrt (nsum (np g) (fun j => ((mu g e j - pi_a g e j) * ce_weight g e j) ^ 2)).
Proof. reflexivity. Qed.
Theorem C22_linearize_refuted (g : gas) (l : list env) (e : env) (J : jac) :
  ce_linearize g (ce_applies g l ce_init) e J = None <->
  l = [] \/ exists l' a, l = l' ++ [a] /\ small g a /\ forall b, In b l' -> ~ small g b.
Proof.
  assert (St : forall l, let s := ce_applies g l ce_init in
     (l = [] /\ s = ce_init) \/
     (exists l' a, l = l' ++ [a] /\ ce_w s <> None /\
       ((forall b, In b l -> ~ small g b) /\ ce_remove s = false /\ ce_trace s = None \/
        (forall b, In b l' -> ~ small g b) /\ small g a /\ ce_remove s = true /\ ce_trace s = None \/
        (exists b, In b l' /\ small g b) /\ ce_trace s <> None))).
  { intros k. induction k as [|a k' IH] using rev_ind; [left; auto|]. cbv zeta in *. right. exists k', a. split; [auto|].
    unfold ce_applies in *. rewrite fold_left_app. cbn [fold_left]. set (s := fold_left _ k' ce_init) in *. cbn [ce_apply snd ce_w ce_remove ce_trace]. split; [discriminate|].
    destruct IH as [[-> Es]|(l' & a' & E & Hw & IH)].
    - rewrite Es. cbn [ce_init ce_remove ce_trace]. rewrite norm_false. destruct (Rlt_dec _ _) as [L|L].
      + right. left. split; [intros b []|]. auto.
      + left. split; [|auto]. intros b [<-|[]]. exact L.
    - destruct IH as [(N1 & R1 & T1)|[(N1 & Sa & R1 & T1)|((b & Hb & Sb) & T1)]].
      + rewrite R1, T1, norm_false. destruct (Rlt_dec _ _) as [L|L].
        * right. left. auto.
        * left. split; [|auto]. intros b Hb. apply in_app_or in Hb as [Hb|[<-|[]]]; auto.
      + right. right. rewrite R1. split; [|discriminate]. exists a'. split; [rewrite E; apply in_or_app; right; left; auto|auto].
      + right. right. split; [exists b; split; [rewrite E; apply in_or_app; left; auto|auto]|]. destruct (ce_remove s); [discriminate|auto]. }
  specialize (St l). cbv zeta in St. set (s := ce_applies g l ce_init) in *. unfold ce_linearize. destruct St as [[-> Es]|(l' & a & E & Hw & St)].
  - rewrite Es. split; [auto|reflexivity].
  - destruct (ce_w s) as [w|] eqn:W; [|congruence]. destruct St as [(N1 & R1 & T1)|[(N1 & Sa & R1 & T1)|((b & Hb & Sb) & T1)]].
    + rewrite R1. split; [discriminate|]. intros [->|(l2 & a2 & E2 & S2 & _)]; [destruct l'; discriminate|]. exfalso. apply (N1 a2); [rewrite E2; apply in_or_app; right; left; auto|auto].
    + rewrite R1, T1. split; [|reflexivity]. intros _. right. exists l', a. auto.
    + destruct (ce_trace s) as [m|] eqn:Tr; [|congruence]. split; [destruct (ce_remove s); discriminate|].
      intros [->|(l2 & a2 & E2 & S2 & N2)]; [destruct l'; discriminate|]. rewrite E in E2. apply app_inj_tail in E2 as [-> _]. exfalso. exact (N2 b Hb Sb).
Qed.
(* the first evaluation at a solution is such a point *)
Example C22_nonvacuous : eq_dom gx (ex 1) /\ none_traced gx (ex 1) /\ small gx (ex 1) /\
  exists e, eq_dom gx e /\ compute (chem_eq gx false) e (fun _ => 0) (I "n" 0) <> 0.
Proof.
  assert (Sm : smooth_at gx 1).
  { intros j Hj. cbn [H0 S0 Cp0 dH0 dS0 dCp0 gx]. split; [apply derivable_pt_lim_const|]. split; [|apply derivable_pt_lim_const].
    apply is_derive_Reals. eapply is_derive_val; [apply dscal_l, is_derive_Reals, derivable_pt_lim_ln; lra|]. field. }
  assert (D1 : eq_dom gx (ex 1)). { split; [apply ex_solved; lra|]. split; [apply ex_solved; lra|exact Sm]. }
  assert (I10 : / 10 ^ 10 + / 10 ^ 20 < 1 / 2). { cbn [pow]. lra. }
  split; [exact D1|]. split; [|split].
  - intros j Hj. destruct (lt2 j Hj) as [-> | ->]; cbn [ex]; (eapply Rlt_le_trans; [exact I10|lra]).
  - unfold small. rewrite nsum_zero by (intros j Hj; rewrite ex_mu by (auto; lra); ring). rewrite sqrt_0. apply Rinv_0_lt_compat, pow_lt. lra.
  - exists (upd (ex 1) (I "pi" 0) (2 + ex 1 (I "pi" 0))). split.
    + destruct D1 as (A & B & C). split; [rewrite upd_neq by discriminate; auto|]. split; [intros; rewrite upd_neq by discriminate; auto|]. rewrite upd_neq by discriminate. auto.
    + cbn [chem_eq compute]. unfold ce_resid. cbn [String.eqb Ascii.eqb Bool.eqb andb]. rewrite (ltb_t 0 (np gx)) by (cbn; lia). unfold ce_resid_n. cbn [andb].
      set (e := upd (ex 1) (I "pi" 0) (2 + ex 1 (I "pi" 0))). assert (M : mu gx e 0 = mu gx (ex 1) 0) by reflexivity.
      assert (Pn : pi_a gx e 0 = pi_a gx (ex 1) 0 + 2). { unfold pi_a. cbn [ne gx]. rewrite !ex_sum1. unfold e. rewrite upd_eq. cbn [aij gx INR]. lra. }
      rewrite M, Pn, ex_mu by (auto; lra). intros Z. assert (W : 0 < ce_weight gx e 0).
      { unfold ce_weight. apply weight_pos. apply Rmult_lt_0_compat; [unfold e; rewrite upd_neq by discriminate; cbn [ex]; lra|].
        apply (ntot_pos gx e 0); [cbn; lia|]. intros j Hj. unfold e. rewrite upd_neq by discriminate. apply ex_solved; [lra|auto]. }
      destruct (Rmult_integral _ _ Z); lra.
Qed.
(* no undeclared entry is ever written, and the residuals depend on nothing but inputs and states *)
Theorem C22_wellformed (g : gas) (remove : bool) : jac_declared (chem_eq g remove) /\ writes_all (chem_eq g remove).
Proof.
  assert (In_n : forall k, (k < np g)%nat -> In (I "n" k) (eq_n g)) by (intros; apply in_map, in_seq0; auto).
  assert (In_pi : forall k, (k < ne g)%nat -> In (I "pi" k) (eq_pi g)) by (intros; apply in_map, in_seq0; auto).
  assert (In_b : forall k, (k < ne g)%nat -> In (I "composition" k) (eq_b g)) by (intros; apply in_map, in_seq0; auto).
  split.
  - intros e J o i Hd. cbn [chem_eq partials decls] in *. unfold declares in Hd.
    assert (D : forall os is w, In (os, is, w) (decls (chem_eq g remove)) -> In o os -> In i is -> False) by (intros os is w A B C; apply Hd; exists os, is, w; auto). clear Hd.
    cbn [chem_eq decls In] in D. unfold ce_jac. destruct o as [so|so j|u so|so a b]; try reflexivity.
    + destruct (String.eqb_spec so "n_moles") as [->|]; [|reflexivity]. destruct i as [s|s k|u s|s a b]; try reflexivity.
      destruct (String.eqb_spec s "n") as [->|]; [|reflexivity]. destruct (Nat.ltb_spec k (np g)); [|reflexivity]. exfalso. apply (D [V "n_moles"] (eq_n g) 0); [tauto|left; auto|auto].
    + destruct (String.eqb_spec so "n") as [->|]; [destruct (Nat.ltb_spec j (np g)) as [Lj|Lj]|]; cbn [andb].
      * assert (D' := D (eq_n g) (eq_n g ++ eq_pi g ++ [V "P"; V "T"]) 0 (or_introl eq_refl) (In_n j Lj)). rewrite !in_app_iff in D'. cbn [In] in D'.
        destruct i as [s|s k|u s|s a b]; try reflexivity.
        -- destruct (String.eqb_spec s "P") as [->|]; [exfalso; tauto|]. destruct (String.eqb_spec s "T") as [->|]; [exfalso; tauto|reflexivity].
        -- destruct (String.eqb_spec s "n") as [->|]; [destruct (Nat.ltb_spec k (np g)); [exfalso; auto|]|]; cbn [andb].
           ++ reflexivity.
           ++ destruct (String.eqb_spec s "pi") as [->|]; [|reflexivity]. destruct (Nat.ltb_spec k (ne g)); [exfalso; auto|reflexivity].
      * reflexivity.
      * destruct (String.eqb_spec so "pi") as [->|]; [|reflexivity]. destruct (Nat.ltb_spec j (ne g)) as [Lj|Lj]; [|reflexivity]. cbn [andb].
        assert (D' := D (eq_pi g) (eq_n g ++ eq_b g) 0 (or_intror (or_introl eq_refl)) (In_pi j Lj)). rewrite !in_app_iff in D'.
        destruct i as [s|s k|u s|s a b]; try reflexivity. destruct (String.eqb_spec s "n") as [->|]; [destruct (Nat.ltb_spec k (np g)); [exfalso; auto|]|]; cbn [andb].
        -- reflexivity.
        -- destruct (String.eqb_spec s "composition") as [->|]; [|reflexivity]. destruct (Nat.ltb_spec k (ne g)); [exfalso; auto|reflexivity].
  - intros e e' old old' o Ho He.
    assert (K : forall i, In i (ins (chem_eq g remove)) -> e i = e' i) by exact He. cbn [chem_eq ins] in K.
    assert (ET : e (V "T") = e' (V "T")) by (apply K; rewrite !in_app_iff; cbn [In]; tauto).
    assert (EP : e (V "P") = e' (V "P")) by (apply K; rewrite !in_app_iff; cbn [In]; tauto).
    assert (EM : e (V "n_moles") = e' (V "n_moles")) by (apply K; rewrite !in_app_iff; cbn [In]; tauto).
    assert (EN : forall k, (k < np g)%nat -> e (I "n" k) = e' (I "n" k)) by (intros k Hk; apply K; rewrite !in_app_iff; auto).
    assert (EPi : forall k, (k < ne g)%nat -> e (I "pi" k) = e' (I "pi" k)) by (intros k Hk; apply K; rewrite !in_app_iff; auto 6).
    assert (EB : forall k, (k < ne g)%nat -> e (I "composition" k) = e' (I "composition" k)) by (intros k Hk; apply K; rewrite !in_app_iff; auto).
    assert (ENt : ntot g e = ntot g e') by (apply nsum_ext; auto).
    cbn [chem_eq compute]. unfold ce_resid. apply ce_outs_inv in Ho as [(j & Hj & ->)|[(j & Hj & ->)| ->]]; cbn [String.eqb Ascii.eqb Bool.eqb andb]; [rewrite (ltb_t _ _ Hj)|rewrite (ltb_t _ _ Hj)|].
    + unfold ce_resid_n, is_trace, ce_weight, mu, pi_a, ce_P. rewrite ENt, ET, EP, !EN by auto. rewrite (nsum_ext (ne g) (fun i => e (I "pi" i) * aij g i j) (fun i => e' (I "pi" i) * aij g i j)) by (intros; rewrite EPi; auto). reflexivity.
    + rewrite EB by auto. f_equal. apply nsum_ext. intros; rewrite EN; auto.
    + rewrite ENt, EM. reflexivity.
Qed.

(* ---------- C23 ---------- *)
(* the assembled systems, entry by entry *)
Theorem C23_systems (g : gas) (e old : env) : let o := compute (props_rhs g) e old in
  (forall i j, (i < ne g)%nat -> (j < ne g)%nat -> o (M "lhs_TP" i j) = nsum (np g) (fun k => aij g i k * aij g j k * e (I "n" k))) /\
  (forall i, (i < ne g)%nat -> o (M "lhs_TP" i (ne g)) = e (I "composition" i) /\ o (M "lhs_TP" (ne g) i) = e (I "composition" i)) /\
  o (M "lhs_TP" (ne g) (ne g)) = 0 /\
  (forall i, (i < ne g)%nat -> o (I "rhs_T" i) = nsum (np g) (fun k => aij g i k * (e (I "n" k) * H0 g k (e (V "T")))) /\ o (I "rhs_P" i) = e (I "composition" i)) /\
  o (I "rhs_T" (ne g)) = nsum (np g) (fun k => e (I "n" k) * H0 g k (e (V "T"))) /\ o (I "rhs_P" (ne g)) = e (V "n_moles") /\
  (forall i j, (i <= ne g)%nat -> (j <= ne g)%nat -> o (M "lhs_TP" i j) = o (M "lhs_TP" j i)).
Proof.
  cbn [props_rhs compute]. cbv zeta.
  assert (F : forall i, (i < ne g)%nat -> Nat.eqb i (ne g) = false) by (intros; apply Nat.eqb_neq; lia).
  assert (P1 : forall i j, (i < ne g)%nat -> (j < ne g)%nat -> rhs_compute g e old (M "lhs_TP" i j) = nsum (np g) (fun k => aij g i k * aij g j k * e (I "n" k))).
  { intros i j Hi Hj. unfold rhs_compute. cbn [String.eqb Ascii.eqb Bool.eqb]. rewrite (ltb_t _ _ Hi), (ltb_t _ _ Hj). reflexivity. }
  assert (P2 : forall i, (i < ne g)%nat -> rhs_compute g e old (M "lhs_TP" i (ne g)) = e (I "composition" i) /\ rhs_compute g e old (M "lhs_TP" (ne g) i) = e (I "composition" i)).
  { intros i Hi. unfold rhs_compute. cbn [String.eqb Ascii.eqb Bool.eqb]. rewrite (ltb_t _ _ Hi), Nat.ltb_irrefl, Nat.eqb_refl, F by auto. split; reflexivity. }
  split; [exact P1|]. split; [exact P2|]. split; [|split; [|split; [|split]]].
  - unfold rhs_compute. cbn [String.eqb Ascii.eqb Bool.eqb]. rewrite Nat.ltb_irrefl, Nat.eqb_refl. reflexivity.
  - intros i Hi. unfold rhs_compute. cbn [String.eqb Ascii.eqb Bool.eqb]. rewrite (ltb_t _ _ Hi). auto.
  - unfold rhs_compute. cbn [String.eqb Ascii.eqb Bool.eqb]. rewrite Nat.ltb_irrefl, Nat.eqb_refl. reflexivity.
  - unfold rhs_compute. cbn [String.eqb Ascii.eqb Bool.eqb]. rewrite Nat.ltb_irrefl, Nat.eqb_refl. reflexivity.
  - intros i j Hi Hj. destruct (Nat.eq_dec i (ne g)) as [->|Ni], (Nat.eq_dec j (ne g)) as [->|Nj].
    + reflexivity.
    + destruct (P2 j) as [A B]; [lia|]. congruence.
    + destruct (P2 i) as [A B]; [lia|]. congruence.
    + rewrite !P1 by lia. apply nsum_ext. intros; ring.
Qed.
Theorem C23_derivatives (g : gas) : comp_ok (props_rhs g) (fun e => smooth_at g (e (V "T"))).
Proof. split; [apply rhs_exact|]. split; [apply rhs_declared_ok|apply rhs_writes]. Qed.
(* what the solutions of the systems mean: along every differentiable family of converged states of one composition, the total
   moles change by  d ln n = - result_T[last] d ln T + result_P[last] d ln P *)
Theorem C23_response (g : gas) (Es : R -> env) (s0 : R) (D : var -> R) : let e := Es s0 in
  eq_path g Es s0 D -> consistent_at g (e (V "T")) -> solves g e -> (exists i, (i < ne g)%nat /\ e (I "composition" i) <> 0) ->
  derivable_pt_lim (fun s => ln (Es s (V "n_moles"))) s0
    (- e (I "result_T" (ne g)) * (D (V "T") / e (V "T")) + e (I "result_P" (ne g)) * (D (V "P") / e (V "P"))).
Proof.
  intros e Hp Hc Hs Hb. assert (Hh := here g Es s0 D Hp). apply is_derive_Reals.
  apply (dloc (fun s => ln (Es s (V "n_moles"))) (fun s => ln (ntot g (Es s)))).
  - destruct Hp as [(eps & Hl) _]. exists eps. intros t Ht. destruct (Hl t Ht) as [K _]. rewrite (eq_moles g _ K). reflexivity.
  - eapply is_derive_val; [apply (dln (fun s => ntot g (Es s))); [exact (Npos g Es s0 D Hp Hb)|exact (dN g Es s0 D Hp)]|].
    rewrite (path_q g Es s0 D Hp Hc Hs Hb). fold e. ring.
Qed.

(* ---------- C24 ---------- *)
Theorem C24_ideal_gas (g : gas) (e old : env) : let o := compute (props_calcs g) e old in
  (0 < e (V "n_moles") -> 0 < e (V "T") -> o (V "rho") * o (V "R") * e (V "T") = 100 * e (V "P")) /\
  o (V "R") = 83144598 / 10000 * e (V "n_moles") /\
  (o (V "Cv") <> 0 -> e (I "result_P" (ne g)) <> 1 -> o (V "gamma") * o (V "Cv") * (1 - e (I "result_P" (ne g))) = o (V "Cp")) /\
  (* composition frozen: Mayer's relation *)
  (e (I "result_T" (ne g)) = 0 -> e (I "result_P" (ne g)) = 0 -> o (V "Cp") - o (V "Cv") = 19872035 / 10000000 * e (V "n_moles") /\ (o (V "Cv") <> 0 -> o (V "gamma") = o (V "Cp") / o (V "Cv"))).
Proof.
  cbn [props_calcs compute]. unfold calcs_compute. cbv zeta. vsimp. split; [|split; [reflexivity|split]].
  - intros Hm HT. assert (Hr := rsi_pos). field. lra.
  - intros Hv Hp. unfold dlnVqdlnP. field. split; [exact Hv|]. intros Z; apply Hp; clear - Z; lra.
  - intros HT HP. split; [unfold pc_Cv, dlnVqdlnP, dlnVqdlnT; rewrite HT, HP; unfold R_ENG; field|]. intros Hv. unfold dlnVqdlnP at 1. rewrite HP. field. exact Hv.
Qed.
(* h, S and Cp are the enthalpy, entropy and equilibrium heat capacity of the mixture, and gamma its isentropic exponent: along every
   differentiable family of converged states of one composition, in whatever way T and P change,
   - first law: dh = T dS + (n_moles R T) dln P;
   - at constant pressure dh = Cp dT (Cp includes the heat of reaction);
   - at constant entropy d ln P = gamma d ln rho. *)
Theorem C24_thermodynamics (g : gas) (Es : R -> env) (s0 : R) (D : var -> R) : let e := Es s0 in
  let out := fun v s => compute (props_calcs g) (Es s) (fun _ => 0) (V v) in
  eq_path g Es s0 D -> consistent_at g (e (V "T")) -> solves g e -> (exists i, (i < ne g)%nat /\ e (I "composition" i) <> 0) ->
  exists dh dS dlnrho,
    derivable_pt_lim (out "h") s0 dh /\ derivable_pt_lim (out "S") s0 dS /\ derivable_pt_lim (fun s => ln (out "rho" s)) s0 dlnrho /\
    dh = e (V "T") * dS + 19872035 / 10000000 * e (V "n_moles") * e (V "T") * (D (V "P") / e (V "P")) /\
    (D (V "P") = 0 -> dh = out "Cp" s0 * D (V "T")) /\
    (dS = 0 -> out "Cp" s0 <> 0 -> out "Cv" s0 <> 0 -> e (I "result_P" (ne g)) <> 1 -> D (V "P") / e (V "P") = out "gamma" s0 * dlnrho).
Proof.
  intros e out Hp Hc Hs Hb. assert (Hh := here g Es s0 D Hp). destruct (Hh) as (HT & HP & Hn & _). fold e in HT, HP, Hn.
  assert (HN := eq_moles g _ Hh). fold e in HN.
  exists (e (V "T") * (pc_Cp g e * (D (V "T") / e (V "T")) + R_ENG * ntot g e * e (I "result_T" (ne g)) * (D (V "P") / e (V "P")))),
    (pc_Cp g e * (D (V "T") / e (V "T")) - R_ENG * ntot g e * (1 - e (I "result_T" (ne g))) * (D (V "P") / e (V "P"))),
    (D (V "P") / e (V "P") - nsum (np g) (fun j => D (I "n" j)) / ntot g e - D (V "T") / e (V "T")).
  split; [apply is_derive_Reals; exact (path_dh g Es s0 D Hp Hc Hs Hb)|]. split; [apply is_derive_Reals; exact (path_dS g Es s0 D Hp Hc Hs Hb)|]. split; [apply is_derive_Reals; exact (path_dlnrho g Es s0 D Hp Hb)|].
  rewrite HN. fold R_ENG. split; [ring|].
  assert (ECp : out "Cp" s0 = pc_Cp g e) by (unfold out; cbn [props_calcs compute]; unfold calcs_compute; cbv zeta; vsimp; reflexivity).
  assert (ECv : out "Cv" s0 = pc_Cv g e) by (unfold out; cbn [props_calcs compute]; unfold calcs_compute; cbv zeta; vsimp; reflexivity).
  assert (EG : out "gamma" s0 = -1 * pc_Cp g e / pc_Cv g e / dlnVqdlnP g e) by (unfold out; cbn [props_calcs compute]; unfold calcs_compute; cbv zeta; vsimp; reflexivity).
  split.
  - intros Z. rewrite Z, ECp. field. lra.
  - rewrite ECp, ECv, EG. intros Z NC NV Np.
    assert (Q := path_q g Es s0 D Hp Hc Hs Hb). cbv zeta in Q. fold e in Q. rewrite Q. clear Q.
    set (tau := D (V "T") / e (V "T")) in *. set (pp := D (V "P") / e (V "P")) in *.
    assert (Tt : tau = R_ENG * ntot g e * (1 - e (I "result_T" (ne g))) * pp / pc_Cp g e).
    { apply (Rmult_eq_reg_r (pc_Cp g e)); [|auto]. unfold Rdiv. rewrite Rmult_assoc, Rinv_l by auto. lra. }
    assert (Nv : dlnVqdlnP g e <> 0) by (unfold dlnVqdlnP; lra).
    assert (Cvv : pc_Cv g e = pc_Cp g e + ntot g e * R_ENG * dlnVqdlnT g e ^ 2 / dlnVqdlnP g e) by (unfold pc_Cv; rewrite HN; reflexivity).
    apply (Rmult_eq_reg_r (pc_Cv g e)); [|auto]. apply (Rmult_eq_reg_r (dlnVqdlnP g e)); [|auto].
    transitivity (- (pc_Cp g e * (pp - (- tau * e (I "result_T" (ne g)) + pp * e (I "result_P" (ne g))) - tau))); [|field; auto].
    rewrite Cvv, Tt. unfold dlnVqdlnP, dlnVqdlnT in *. field. split; lra.
Qed.
(* every Properties object over well formed species data meets the two conditions on the species functions, at every positive
   temperature that is not a junction of two fits *)
Theorem C24_species_functions (p : props) (hist : list (query * R)) (T : R) :
  (forall s, In s (p_species p) -> wf_species s) -> List.length (p_species p) = List.length (p_products p) -> 0 < T ->
  (forall i, (i < List.length (p_species p))%nat -> ~ breakpoint (nth i (p_species p) sp0) T) ->
  consistent_at (gas_of p hist) T /\ smooth_at (gas_of p hist) T.
Proof.
  intros WF HL HT Hb. assert (K : forall j, (j < np (gas_of p hist))%nat -> _) by
   (intros j Hj; cbn [gas_of np] in Hj; rewrite <- HL in Hj; exact (C15_consistent (p_species p) hist T j WF Hj HT (Hb j Hj))).
  split; intros j Hj; destruct (K j Hj) as (A & B & C & E & F).
  - split; [exact A|exact B].
  - split; [exact (proj1 (C 1))|]. split; [exact (proj1 (E 1))|exact (proj1 (F 1))].
Qed.
(* the declared derivatives *)
Definition props_dom (g : gas) (e : env) : Prop :=
  smooth_at g (e (V "T")) /\ 0 < e (V "T") /\ 0 < e (V "P") /\ 0 < e (V "n_moles") /\ (forall j, (j < np g)%nat -> 0 < e (I "n" j)) /\
  e (I "result_P" (ne g)) <> 1 /\ (forall old, compute (props_calcs g) e old (V "Cv") <> 0).
Lemma props_dom_calcs g e : props_dom g e -> calcs_dom g e.
Proof.
  intros (A & B & C & E & F & G & H). repeat (split; [assumption|]). split; [unfold dlnVqdlnP; lra|]. specialize (H (fun _ => 0)).
  cbn [props_calcs compute] in H. unfold calcs_compute in H. cbv zeta in H. revert H. vsimp. auto.
Qed.
Theorem C24_derivatives_partial (g : gas) :
  jac_exact_on (props_calcs g) (props_dom g) (fun o i => ~ (o = V "S" /\ exists k, i = I "n" k)) /\
  jac_exact (props_calcs g) (fun e => props_dom g e /\ none_traced g e) /\ jac_declared (props_calcs g) /\ writes_all (props_calcs g).
Proof.
  split; [|split; [|split; [apply calcs_declared_ok|apply calcs_writes]]].
  - intros hist e old o i Hd Ho Hi Hs. apply calcs_value; auto; [apply props_dom_calcs; auto|]. intros (-> & k & _ & -> & _). apply Hs. split; [auto|exists k; auto].
  - intros hist e old o i [Hd Hn] Ho Hi. apply calcs_value; auto; [apply props_dom_calcs; auto|]. intros (-> & k & Hk & -> & L). specialize (Hn k Hk).
    exact (Rlt_irrefl _ (Rlt_le_trans _ _ _ Hn L)).
Qed.
(* for a trace species the entry of dS/dn is 0, which is not the derivative unless S0 + ln n - ln P - ln n_j happens to be 1 *)
Theorem C24_trace_refuted (g : gas) hist e k : props_dom g e -> (k < np g)%nat -> e (I "n" k) <= / 10 ^ 10 + / 10 ^ 20 ->
  jac_after (props_calcs g) hist e (V "S") (I "n" k) = 0 /\
  forall old, derivable_pt_lim (fun t => compute (props_calcs g) (upd e (I "n" k) t) old (V "S")) (e (I "n" k))
    (19872035 / 10000000 * (S0 g k (e (V "T")) + ln (e (V "n_moles")) - ln (e (V "P") / (101325 / 100000)) - ln (e (I "n" k)) - 1)).
Proof.
  intros Hd Hk L. split.
  - apply calcs_trace. split; [auto|]. exists k. auto.
  - intros old. apply props_dom_calcs in Hd. apply is_derive_Reals. eapply is_derive_val; [apply (dCalc_d g e old (V "S") (I "n" k) Hd); cbn; auto|].
    destruct Hd as (_ & _ & HP & Hm & Hn & _). unfold dCalc. cbn [String.eqb Ascii.eqb Bool.eqb]. rewrite S_n_val by auto. reflexivity.
Qed.
(* A reacting family of states meets the hypotheses of C23_response and C24_thermodynamics, with every quantity changing. *)
Definition ex_D : var -> R := fun v => match v with
  | V "P" => - (9 / 2) * P_REF | I "n" 0%nat => 1 | I "n" 1%nat => - (1 / 2) | I "pi" 0%nat => - (3 / 2) | _ => 0 end.
Lemma ex_path : eq_path gx ex 1 ex_D.
Proof.
  split.
  - exists (mkposreal 1 Rlt_0_1). intros s Hs. cbn [pos] in Hs. apply Rabs_def2 in Hs. split; [|intros i Hi; reflexivity].
    assert (0 < s < 3) by lra. destruct (ex_solved s) as (A & B & C); auto. split; [cbn [ex]; lra|]. split; [exact A|]. split; [exact B|exact C].
  - intros v Hv. apply is_derive_Reals. cbn [app eq_n eq_pi np ne gx map seq In] in Hv.
    assert (Did : is_derive (fun s : R => s) 1 1) by exact (is_derive_id 1).
    destruct Hv as [<-|[<-|[<-|[<-|[<-|[]]]]]].
    + apply (dconst 1).
    + eapply is_derive_val.
      * eapply (dscal_l (fun s => (9 - s ^ 2) / (4 * s ^ 2)) 1). apply (ddiv (fun s => 9 - s ^ 2) (fun s => 4 * s ^ 2)); [lra| |].
        -- apply dminus; [apply dconst|]. apply is_derive_pow, Did.
        -- apply dscal_l, is_derive_pow, Did.
      * cbn [ex_D pred INR pow]. field.
    + exact Did.
    + eapply is_derive_val; [eapply (dscal (fun s => 3 - s) 1); apply dminus; [apply dconst|exact Did]|]. cbn [ex_D]. field.
    + eapply is_derive_val.
      * apply (dminus (fun s => 1 + ln ((3 - s) / 2)) (fun s => ln s)); [|apply (dln (fun s => s)); [lra|exact Did]].
        apply dplus; [apply dconst|]. apply (dln (fun s => (3 - s) / 2)); [lra|]. eapply (dscal (fun s => 3 - s) 1). apply dminus; [apply dconst|exact Did].
      * cbn [ex_D]. field.
Qed.
Example C24_nonvacuous : eq_path gx ex 1 ex_D /\ consistent_at gx (ex 1 (V "T")) /\ solves gx (ex 1) /\ ex 1 (I "composition" 0) <> 0 /\
  (0 < ne gx)%nat /\ ex_D (V "P") <> 0 /\ ex 1 (I "result_P" (ne gx)) <> 1 /\ props_dom gx (ex 1) /\ none_traced gx (ex 1).
Proof.
  assert (Did : is_derive (fun s : R => s) 1 1) by exact (is_derive_id 1).
  split; [exact ex_path|]. split.
  { intros j Hj. cbn [H0 S0 Cp0 gx ex]. split; apply is_derive_Reals.
    - eapply is_derive_val; [apply (dscal (fun t => t) 1 1 (INR j + 1) Did)|]. ring.
    - eapply is_derive_val; [apply dscal_l, is_derive_Reals, derivable_pt_lim_ln; lra|]. field. }
  split.
  { intros i Hi. cbn [ne gx] in *. assert (Hi' : i = 0%nat \/ i = 1%nat) by lia. cbn [props_rhs compute]. unfold rhs_compute. cbn [ne np gx].
    destruct Hi' as [-> | ->]; rewrite !ex_sum; cbn [String.eqb Ascii.eqb Bool.eqb andb Nat.ltb Nat.leb Nat.eqb ex]; rewrite ?ex_sum; unfold aij_prod; cbn [aij gx H0 INR ex]; split; field. }
  split; [cbn [ex]; lra|]. split; [cbn; lia|]. split; [cbn [ex_D]; pose proof pref_pos; lra|]. split; [cbn [ne gx ex]; lra|].
  destruct C22_nonvacuous as ((HP & Hn & Sm) & NT & _).
  split; [|exact NT]. split; [exact Sm|]. split; [cbn [ex]; lra|]. split; [exact HP|]. split; [cbn [ex]; lra|]. split; [exact Hn|]. split; [cbn [ne gx ex]; lra|].
  intros old. cbn [props_calcs compute]. unfold calcs_compute. cbv zeta. vsimp. unfold pc_Cv, pc_Cp, Cpe, Cpf, dlnVqdlnT, dlnVqdlnP, nj_H0, nj, h0. cbn [ne np gx]. rewrite !ex_sum1. rewrite !ex_sum.
  cbn [ex H0 Cp0 aij gx INR]. unfold R_ENG. match goal with |- ?a <> 0 => replace a with (6 / 5 * (19872035 / 10000000)) by field end. lra.
Qed.
