(* Converged elements, continued: stations of the example gas at arbitrary temperature and pressure. *)
From Coq Require Import FunctionalExtensionality Ascii Lia.
From Verif Require Import Lib_R Spec_Wire Model_Thermo Proofs_Wire Prop_Static Prop_Thermo Model_Elem1 Proofs_Elem Proofs_Elem2 Proofs_ElemEx.
Open Scope string_scope. Open Scope list_scope. Open Scope R_scope.

(* a total state, and a static state with velocity V, speed of sound a, area A and mass flow W *)
Definition gtot (T P : R) (x : string) : R := if String.eqb x "T" then T else if String.eqb x "P" then P else props T P x.
Definition gstat (T P V a A W : R) (x : string) : R :=
  lookup (gtot T P x) [("V", V); ("Vsonic", a); ("MN", V / a); ("area", A); ("W", W); ("Ps", P)] x.
(* a state: given values first, then by the first matching prefix of the name a table of properties *)
Definition est3 (ov : list (string * R)) (rg : list (string * (string -> R))) : state := fun x _ =>
  match find (fun p => String.eqb (fst p) x) ov with
  | Some p => snd p
  | None => if String.eqb (lastp x "") "composition" then 0 else
            match find (fun p => prefix (fst p) x) rg with Some p => snd p (lastp x "") | None => 0 end
  end.
Section S.
Variables T P Ve a A W ht : R.
Variables (nm fl fl' : string) (pi po : list promo) (w : state).
Hypothesis Hn : ok_name fl.
Hypothesis Hs : shows nm po fl fl'.
Notation rel m := (srel (tsub gas2 TABULAR nm m fl pi po) (lin (tsub gas2 TABULAR nm m fl pi po) w) (lout (tsub gas2 TABULAR nm m fl pi po) w)).
Section Tot.
Hypothesis Hv : forall x, In x ["T"; "P"; "h"; "S"; "gamma"; "Cp"; "Cv"; "rho"; "R"] -> w (at_ fl' x) 0%nat = gtot T P x.
Lemma gtot_v : forall c, gas2 (w (at_ fl' "T") 0%nat) (w (at_ fl' "P") 0%nat / ufac (p_unit TABULAR)) c (fun x => w (at_ fl' x) 0%nat).
Proof.
  apply vals_ok with (T := T) (P := P); [rewrite Hv by inp; reflexivity|rewrite Hv by inp; reflexivity|].
  intros x Hx. rewrite Hv by (cbn in Hx |- *; tauto). cbn in Hx. repeat destruct Hx as [<-|Hx]; try contradiction; reflexivity.
Qed.
Lemma gex_TP : (forall x, In x ["T"; "P"; "composition"] -> same w (at_ fl' x) (gname nm pi x)) -> (forall x, In x prop_names -> same w (at_ fl' x) (gname nm po x)) -> rel total_TP.
Proof. intros. eapply (mk_TP gas2 TABULAR gas2_local nm fl fl' pi po w Hn Hs); [apply gtot_v|apply vals_eq|assumption|assumption]. Qed.
Lemma gex_hP : (forall x, In x ["h"; "P"; "composition"] -> same w (at_ fl' x) (gname nm pi x)) ->
  (forall x, In x ["T"; "S"; "gamma"; "Cp"; "Cv"; "rho"; "R"] -> same w (at_ fl' x) (gname nm po x)) -> w (gname nm po "base_thermo.h") 0%nat = w (at_ fl' "h") 0%nat -> rel total_hP.
Proof. intros. eapply (mk_hP gas2 TABULAR gas2_local nm fl fl' pi po w Hn Hs); [apply gtot_v|apply vals_eq|assumption ..]. Qed.
Lemma gex_SP : (forall x, In x ["S"; "P"; "composition"] -> same w (at_ fl' x) (gname nm pi x)) ->
  (forall x, In x ["T"; "h"; "gamma"; "Cp"; "Cv"; "rho"; "R"] -> same w (at_ fl' x) (gname nm po x)) -> w (gname nm po "base_thermo.S") 0%nat = w (at_ fl' "S") 0%nat -> rel total_SP.
Proof. intros. eapply (mk_SP gas2 TABULAR gas2_local nm fl fl' pi po w Hn Hs); [apply gtot_v|apply vals_eq|assumption ..]. Qed.
End Tot.
Section Stat.
Hypothesis (pT : 0 < T) (pP : 0 < P) (pV : 0 < Ve) (pa : 0 < a) (pA : 0 < A).
Hypothesis Ea : a * a = 400 * T.
Hypothesis Ew : W = P / (320 * T) * Ve * A.
Hypothesis Eh : ht = 1600 * T + Ve * Ve / 2.
Hypothesis EM : / 1000 <= Ve / a.
Hypothesis Hv : forall x, In x ["T"; "P"; "h"; "S"; "gamma"; "Cp"; "Cv"; "rho"; "R"; "V"; "Vsonic"; "MN"; "area"; "W"] -> w (at_ fl' x) 0%nat = gstat T P Ve a A W x.
Hypothesis Hc : same w (at_ fl' "composition") (gname nm pi "flow.composition").
Hypothesis Hht : w (gname nm pi "ht") 0%nat = ht.
Lemma gstat_v : forall c, gas2 (w (at_ fl' "T") 0%nat) (w (at_ fl' "P") 0%nat / ufac (p_unit TABULAR)) c (fun x => w (at_ fl' x) 0%nat).
Proof.
  apply vals_ok with (T := T) (P := P); [rewrite Hv by inp; reflexivity|rewrite Hv by inp; reflexivity|].
  intros x Hx. rewrite Hv by (cbn in Hx |- *; tauto). cbn in Hx. repeat destruct Hx as [<-|Hx]; try contradiction; reflexivity.
Qed.
Lemma gstat_f : static_ok w fl' (w (gname nm pi "ht") 0%nat).
Proof.
  rewrite Hht. unfold static_ok. rewrite !Hv by inp.
  change (1600 * T + Ve ^ 2 / 2 = ht /\ a ^ 2 = 5 / 4 * 320 * T /\ 0 <= a /\ Ve = Ve / a * a /\ P / (320 * T) * Ve * A = W).
  split; [rewrite Eh; field|]. split; [transitivity (a * a); [ring|rewrite Ea; field]|]. split; [lra|]. split; [field; lra|]. symmetry. exact Ew.
Qed.
Lemma gstat_nz : w (gname nm pi "ht") 0%nat <> 0 /\ 0 < w (at_ fl' "gamma") 0%nat * w (at_ fl' "R") 0%nat * w (at_ fl' "T") 0%nat /\ w (at_ fl' "rho") 0%nat <> 0 /\
  / 10 ^ 16 <= w (at_ fl' "MN") 0%nat /\ w (at_ fl' "area") 0%nat <> 0 /\ 0 < w (at_ fl' "V") 0%nat /\ 0 < w (at_ fl' "gamma") 0%nat /\ 0 < w (at_ fl' "R") 0%nat /\ 0 < w (at_ fl' "T") 0%nat.
Proof.
  rewrite Hht, !Hv by inp. change (ht <> 0 /\ 0 < 5 / 4 * 320 * T /\ P / (320 * T) <> 0 /\ / 10 ^ 16 <= Ve / a /\ A <> 0 /\ 0 < Ve /\ 0 < 5 / 4 /\ 0 < 320 /\ 0 < T).
  assert (N : 0 < P / (320 * T)) by (apply Rdiv_lt_0_compat; lra). assert (Q : 0 < Ve * Ve) by (apply Rmult_lt_0_compat; lra). assert (H : / 10 ^ 16 <= / 1000) by (apply Rinv_le_contravar; [lra|lra]).
  repeat match goal with |- _ /\ _ => split end; try lra.
Qed.
Lemma gex_MN : (forall x, In x ["S"; "W"; "MN"] -> same w (at_ fl' x) (gname nm pi x)) ->
  (forall x, In x ["T"; "h"; "gamma"; "Cp"; "Cv"; "rho"; "R"; "V"; "Vsonic"; "area"] -> same w (at_ fl' x) (gname nm po x)) -> same w (at_ fl' "P") (gname nm po "Ps") ->
  w (gname nm po "base_thermo.S") 0%nat = w (at_ fl' "S") 0%nat -> rel static_MN.
Proof. intros. destruct gstat_nz as (N1 & N2 & N3 & N4 & N5 & _). eapply (mk_MN gas2 TABULAR gas2_local nm fl fl' pi po w Hn Hs); [apply gstat_v|apply vals_eq|assumption ..|apply gstat_f]. Qed.
Lemma gex_A : (forall x, In x ["S"; "W"; "area"] -> same w (at_ fl' x) (gname nm pi x)) ->
  (forall x, In x ["T"; "h"; "gamma"; "Cp"; "Cv"; "rho"; "R"; "V"; "Vsonic"; "MN"] -> same w (at_ fl' x) (gname nm po x)) -> same w (at_ fl' "P") (gname nm po "Ps") ->
  w (gname nm po "base_thermo.S") 0%nat = w (at_ fl' "S") 0%nat -> rel static_A.
Proof. intros. destruct gstat_nz as (N1 & N2 & N3 & N4 & N5 & _). eapply (mk_A gas2 TABULAR gas2_local nm fl fl' pi po w Hn Hs); [apply gstat_v|apply vals_eq|assumption ..|apply gstat_f]. Qed.
Lemma gex_Ps : (forall x, In x ["S"; "W"] -> same w (at_ fl' x) (gname nm pi x)) ->
  (forall x, In x ["T"; "h"; "gamma"; "Cp"; "Cv"; "rho"; "R"; "V"; "Vsonic"; "MN"; "area"] -> same w (at_ fl' x) (gname nm po x)) -> same w (at_ fl' "P") (gname nm pi "Ps") ->
  w (gname nm po "base_thermo.S") 0%nat = w (at_ fl' "S") 0%nat -> rel static_Ps.
Proof. intros. destruct gstat_nz as (N1 & N2 & N3 & N4 & N5 & N6 & N7 & N8 & N9). eapply (mk_Ps gas2 TABULAR gas2_local nm fl fl' pi po w Hn Hs); [apply gstat_v|apply vals_eq|assumption ..|apply gstat_f]. Qed.
End Stat.
End S.
(* tactics; values that agree only after some arithmetic are left to tac *)
Ltac eachx tac := let x := fresh in let H := fresh in intros x H; cbn in H; repeat destruct H as [<-|H]; try contradiction; first [reflexivity | let k := fresh in intros k; reflexivity | tac].
Ltac gx_tot T P tac := match goal with
  | |- srel (tsub _ _ _ total_TP _ _ _) _ _ => eapply (gex_TP T P); [okx|shx|eachx tac|eachx tac|eachx tac]
  | |- srel (tsub _ _ _ total_hP _ _ _) _ _ => eapply (gex_hP T P); [okx|shx|eachx tac|eachx tac|eachx tac|first [reflexivity|tac]]
  | |- srel (tsub _ _ _ total_SP _ _ _) _ _ => eapply (gex_SP T P); [okx|shx|eachx tac|eachx tac|eachx tac|first [reflexivity|tac]]
  end.
(* num solves the numerical side conditions *)
Ltac gx_stat T P V a A W ht num tac := match goal with
  | |- srel (tsub _ _ _ static_MN _ _ _) _ _ => eapply (gex_MN T P V a A W ht); [okx|shx|num|num|num|num|num|num|num|num|num|eachx tac|samex|reflexivity|eachx tac|eachx tac|samex|first [reflexivity|tac]]
  | |- srel (tsub _ _ _ static_A _ _ _) _ _ => eapply (gex_A T P V a A W ht); [okx|shx|num|num|num|num|num|num|num|num|num|eachx tac|samex|reflexivity|eachx tac|eachx tac|samex|first [reflexivity|tac]]
  | |- srel (tsub _ _ _ static_Ps _ _ _) _ _ => eapply (gex_Ps T P V a A W ht); [okx|shx|num|num|num|num|num|num|num|num|num|eachx tac|samex|reflexivity|eachx tac|eachx tac|samex|first [reflexivity|tac]]
  end.
