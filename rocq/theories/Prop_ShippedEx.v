(* Concrete converged states with the shipped data: argon at any temperature and pressure, dissociating nitrogen at any temperature. *)
From Coq Require Import ZArith Lia.
From Verif Require Import Lib_Py Lib_R Lib_Loop Model_Species Data_Thermo Proofs_Species Prop_Species.
From Verif Require Import Spec_Wire Model_Thermo Proofs_Wire Prop_Thermo Model_Equil Proofs_Equil Proofs_Props Proofs_Thermo Prop_Equil Model_Cea Proofs_Cea Proofs_Stable Prop_Cea Prop_Shipped Prop_Shipped2.
Open Scope string_scope. Open Scope list_scope. Open Scope R_scope.

Section One.
Variable g : gas.
Hypothesis H1 : np g = 1%nat. Hypothesis H2 : ne g = 1%nat. Hypothesis H3 : aij g 0 0 = 1.
Variables T P : R.
Hypothesis HP : 0 < P.
Definition one_state : env := fun v =>
  match v with
  | V x => if String.eqb x "T" then T else if String.eqb x "P" then P else 1
  | I x i => if String.eqb x "pi" then H0 g 0 T - S0 g 0 T + ln (P / P_REF) else if String.eqb x "result_T" then match i with 0%nat => H0 g 0 T | _ => 0 end else if String.eqb x "result_P" then match i with 0%nat => 1 | _ => 0 end else 1
  | _ => 0
  end.
Lemma sum1 f : nsum 1 f = f 0%nat. Proof. unfold nsum. cbn. ring. Qed.
Lemma sum2 f : nsum 2 f = f 0%nat + f 1%nat. Proof. unfold nsum. cbn. ring. Qed.
Lemma one_mu : mu g one_state 0 = pi_a g one_state 0.
Proof.
  unfold mu, pi_a, ntot. rewrite H1, H2, !sum1, H3, ce_P_pos by exact HP. cbn [one_state String.eqb Ascii.eqb Bool.eqb]. rewrite ln_1. ring.
Qed.
Lemma one_eq : equilibrium g T P (fun _ => 1) one_state.
Proof.
  split; [split; [exact HP|split]|split; [|split]].
  - intros j Hj. cbn. lra.
  - intros old o Ho. apply ce_outs_inv in Ho as [(j & Hj & ->)|[(j & Hj & ->)| ->]]; cbn [chem_eq compute]; unfold ce_resid; cbn [String.eqb Ascii.eqb Bool.eqb andb].
    + rewrite (ltb_t _ _ Hj). unfold ce_resid_n. cbn [andb]. rewrite H1 in Hj. assert (j = 0%nat) by lia. subst. rewrite one_mu. ring.
    + rewrite (ltb_t _ _ Hj), H1, sum1. rewrite H2 in Hj. assert (j = 0%nat) by lia. subst. rewrite H3. cbn. ring.
    + unfold ntot. rewrite H1, sum1. cbn. ring.
  - intros i Hi. rewrite H2 in *. cbn [props_rhs compute]. unfold rhs_compute. rewrite H2, H1. assert (Hi' : i = 0%nat \/ i = 1%nat) by lia.
    destruct Hi' as [-> | ->]; rewrite !sum2; cbn [String.eqb Ascii.eqb Bool.eqb andb Nat.ltb Nat.leb Nat.eqb one_state]; rewrite ?sum1; unfold aij_prod; rewrite ?H3; cbn [one_state String.eqb Ascii.eqb Bool.eqb]; split; ring.
  - intros j Hj. cbn. unfold MIN_CONC. apply Rle_trans with (/ 1); [apply Rinv_le_contravar; [lra|apply pow_R1_Rle; lra]|rewrite Rinv_1; apply Rle_refl].
  - repeat split.
Qed.
Lemma one_tp : cea_tp g T P (fun _ => 1) (prop_of g one_state).
Proof. apply (cea_make g T P (fun _ => 1) one_state); [exact HP|exact one_eq|reflexivity]. Qed.
End One.
Section Two.
Variable g : gas.
Hypothesis H1 : np g = 2%nat. Hypothesis H2 : ne g = 1%nat. Hypothesis H3 : aij g 0 0 = 1. Hypothesis H4 : aij g 0 1 = 2.
Variable T : R.
(* the pressure at which there are as many atoms as molecules *)
Definition twoP : R := P_REF * (2 * exp ((H0 g 1 T - S0 g 1 T) - 2 * (H0 g 0 T - S0 g 0 T))).
Lemma twoP_pos : 0 < twoP. Proof. unfold twoP. apply Rmult_lt_0_compat; [exact pref_pos|]. apply Rmult_lt_0_compat; [lra|apply exp_pos]. Qed.
Definition two_state : env := fun v =>
  match v with
  | V x => if String.eqb x "T" then T else if String.eqb x "P" then twoP else 2
  | I x i => if String.eqb x "pi" then (H0 g 1 T - S0 g 1 T) - (H0 g 0 T - S0 g 0 T)
     else if String.eqb x "result_T" then match i with 0%nat => (H0 g 0 T + H0 g 1 T) / 3 | _ => (H0 g 0 T + 2 * H0 g 1 T - 5 * ((H0 g 0 T + H0 g 1 T) / 3)) / 3 end
     else if String.eqb x "result_P" then match i with 0%nat => 2 / 3 | _ => - 1 / 9 end else if String.eqb x "composition" then 3 else 1
  | _ => 0
  end.
Lemma two_mu j : (j < 2)%nat -> mu g two_state j = pi_a g two_state j.
Proof.
  intros Hj. unfold mu, pi_a, ntot. rewrite H1, H2, !sum1, sum2, ce_P_pos by exact twoP_pos. cbn [two_state String.eqb Ascii.eqb Bool.eqb].
  assert (L : ln (twoP / P_REF) = ln 2 + ((H0 g 1 T - S0 g 1 T) - 2 * (H0 g 0 T - S0 g 0 T))).
  { unfold twoP. pose proof pref_pos. rewrite Rmult_comm. unfold Rdiv. rewrite Rmult_assoc, Rinv_r, Rmult_1_r by lra. rewrite ln_mult by (try apply exp_pos; lra). rewrite ln_exp. ring. }
  rewrite L. replace (1 + 1) with 2 by ring. rewrite ln_1. destruct j as [|[|j]]; [rewrite H3; ring|rewrite H4; ring|lia].
Qed.
Definition cthree : nat -> R := fun _ => 3.
Lemma two_eq : equilibrium g T twoP cthree two_state.
Proof.
  split; [split; [exact twoP_pos|split]|split; [|split]].
  - intros j Hj. cbn. lra.
  - intros old o Ho. apply ce_outs_inv in Ho as [(j & Hj & ->)|[(j & Hj & ->)| ->]]; cbn [chem_eq compute]; unfold ce_resid; cbn [String.eqb Ascii.eqb Bool.eqb andb].
    + rewrite (ltb_t _ _ Hj). unfold ce_resid_n. cbn [andb]. rewrite H1 in Hj. rewrite two_mu by exact Hj. ring.
    + rewrite (ltb_t _ _ Hj), H1, sum2. rewrite H2 in Hj. assert (j = 0%nat) by lia. subst. rewrite H3, H4. cbn. ring.
    + unfold ntot. rewrite H1, sum2. cbn. ring.
  - intros i Hi. rewrite H2 in *. cbn [props_rhs compute]. unfold rhs_compute. rewrite H2, H1. assert (Hi' : i = 0%nat \/ i = 1%nat) by lia.
    destruct Hi' as [-> | ->]; rewrite !sum2; cbn [String.eqb Ascii.eqb Bool.eqb andb Nat.ltb Nat.leb Nat.eqb two_state]; rewrite ?sum2; unfold aij_prod; rewrite ?H3, ?H4; cbn [two_state String.eqb Ascii.eqb Bool.eqb]; split; field.
  - intros j Hj. cbn. unfold MIN_CONC. apply Rle_trans with (/ 1); [apply Rinv_le_contravar; [lra|apply pow_R1_Rle; lra]|rewrite Rinv_1; apply Rle_refl].
  - repeat split.
Qed.
Lemma two_tp : cea_tp g T twoP cthree (prop_of g two_state).
Proof. apply (cea_make g T twoP cthree two_state); [exact twoP_pos|exact two_eq|reflexivity]. Qed.
End Two.
Definition Ar_d : spD := Eval vm_compute in get_sp "Ar".
Lemma d1R : dR (1, 0)%Z = 1. Proof. unfold dR. cbn. ring. Qed.
Lemma d2R : dR (2, 0)%Z = 2. Proof. unfold dR. cbn. ring. Qed.
Lemma mk_argon : exists p, mk_properties (specR janaf_dec) (Some (("Ar", 1) :: nil)) = Ok p /\ p_products p = ("Ar" :: nil) /\ p_elements p = ("Ar" :: nil) /\ nth 0 (nth 0 (p_aij p) []) 0 = 1.
Proof.
  destruct (get_all (dget (element_wts (specR janaf_dec))) ("Ar" :: nil)) as [w|] eqn:G; [|exfalso; cbv -[R IZR Rmult powerRZ] in G; discriminate].
  eexists. split; [|].
  - unfold mk_properties. cbv zeta. replace (sorted (dkeys (("Ar", 1) :: nil))) with ("Ar" :: nil) by reflexivity.
    assert (F : filter (fun np => formable ("Ar" :: nil) (snd np)) (products (specR janaf_dec)) = (("Ar", spR Ar_d) :: nil)) by (cbv -[R IZR Rmult powerRZ]; reflexivity).
    rewrite F, G.
    assert (K : forallb (fun e => str_in e (valid_elements (specR janaf_dec))) ("Ar" :: nil) = true) by (cbv -[R IZR Rmult powerRZ]; reflexivity). rewrite K. reflexivity.
  - cbn [p_products p_elements p_aij map fst snd nth]. split; [reflexivity|]. split; [reflexivity|]. exact d1R.
Qed.
Lemma mk_nitrogen : exists p, mk_properties (specR janaf_dec) (Some (("N", 1) :: nil)) = Ok p /\ p_products p = ["N"; "N2"] /\ p_elements p = ("N" :: nil) /\ nth 0 (nth 0 (p_aij p) []) 0 = 1 /\ nth 1 (nth 0 (p_aij p) []) 0 = 2.
Proof.
  destruct (get_all (dget (element_wts (specR janaf_dec))) ("N" :: nil)) as [w|] eqn:G; [|exfalso; cbv -[R IZR Rmult powerRZ] in G; discriminate].
  eexists. split; [|].
  - unfold mk_properties. cbv zeta. replace (sorted (dkeys (("N", 1) :: nil))) with ("N" :: nil) by reflexivity.
    assert (F : filter (fun np => formable ("N" :: nil) (snd np)) (products (specR janaf_dec)) = [("N", spR N_d); ("N2", spR N2_d)]) by (cbv -[R IZR Rmult powerRZ]; reflexivity).
    rewrite F, G.
    assert (K : forallb (fun e => str_in e (valid_elements (specR janaf_dec))) ("N" :: nil) = true) by (cbv -[R IZR Rmult powerRZ]; reflexivity). rewrite K. reflexivity.
  - cbn [p_products p_elements p_aij map fst snd nth]. split; [reflexivity|]. split; [reflexivity|]. split; [exact d1R|exact d2R].
Qed.
(* argon across the junction: 300 K and 2500 K at any pressure *)
Example C62_shipped_nonvacuous : exists p, mk_properties (specR janaf_dec) (Some (("Ar", 1) :: nil)) = Ok p /\ p_products p <> [] /\
  forall hist P, 0 < P -> exists a b, cea_tp (gas_of p hist) 300 P (fun _ => 1) a /\ cea_tp (gas_of p hist) 2500 P (fun _ => 1) b.
Proof.
  destruct mk_argon as (p & Hp & E1 & E2 & E3). exists p. split; [exact Hp|]. split; [rewrite E1; discriminate|]. intros hist P HP. do 2 eexists.
  split; apply one_tp; cbn [gas_of np ne aij]; rewrite ?E1, ?E2; auto.
Qed.
(* dissociating nitrogen at any temperature, as many atoms as molecules *)
Example C61_shipped_nonvacuous : exists p, mk_properties (specR janaf_dec) (Some (("N", 1) :: nil)) = Ok p /\ p_products p = ["N"; "N2"] /\
  forall hist T, exists P a, 0 < P /\ cea_tp (gas_of p hist) T P cthree a.
Proof.
  destruct mk_nitrogen as (p & Hp & E1 & E2 & E3 & E4). exists p. split; [exact Hp|]. split; [exact E1|]. intros hist T. do 2 eexists.
  split; [apply twoP_pos|apply two_tp; cbn [gas_of np ne aij]; rewrite ?E1, ?E2; auto].
Qed.
(* so nitrogen from the shipped data is stable at 5000 K *)
Example C63_shipped_nonvacuous : exists p P a, mk_properties (specR janaf_dec) (Some (("N", 1) :: nil)) = Ok p /\ cea_tp (gas_of p []) 5000 P cthree a /\ 0 < a "Cv" /\ a "Cv" <= a "Cp".
Proof.
  destruct mk_nitrogen as (p & Hp & E1 & E2 & E3 & E4). assert (K : cea_tp (gas_of p []) 5000 (twoP (gas_of p []) 5000) cthree (prop_of (gas_of p []) (two_state (gas_of p []) 5000))) by (apply two_tp; cbn [gas_of np ne aij]; rewrite ?E1, ?E2; auto).
  exists p. do 2 eexists. split; [exact Hp|]. split; [exact K|]. destruct (C63_shipped janaf_dec _ p ltac:(cbn; tauto) Hp [] 5000 _ cthree _ ltac:(rewrite E1; discriminate) ltac:(lra) K) as (A & B & _). auto.
Qed.
