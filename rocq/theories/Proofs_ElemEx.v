(* A concrete gas and concrete stations, used to exhibit converged elements (the hypotheses of the C48 theorems are met). *)
From Coq Require Import FunctionalExtensionality Ascii Lia.
From Verif Require Import Lib_R Spec_Wire Model_Thermo Proofs_Wire Prop_Static Prop_Thermo Model_Elem1 Proofs_Elem Proofs_Elem2.
Open Scope string_scope. Open Scope list_scope. Open Scope R_scope.

(* a calorically perfect gas; the entropy is any increasing function of T^5 / P (gamma = 5/4, so T^5 / P is constant along isentropes) *)
Definition props (T P : R) (x : string) : R := lookup 0
  [("h", 1600 * T); ("S", T ^ 5 / P); ("gamma", 5 / 4); ("Cp", 1600); ("Cv", 1280); ("rho", P / (320 * T)); ("R", 320)] x.
Definition gas2 (T P : R) (c : nat -> R) (p : string -> R) : Prop := forall x, In x prop_names -> p x = props T P x.
Lemma gas2_local : tp_local gas2.
Proof. intros T P c p p' E H x Hx. rewrite <- E by exact Hx. apply H. exact Hx. Qed.
Lemma pu : ufac (p_unit TABULAR) = 1. Proof. reflexivity. Qed.
Lemma pru x : In x prop_names -> ufac (prop_unit TABULAR x) = 1.
Proof. intros H. cbn in H. repeat destruct H as [<-|H]; try reflexivity. contradiction. Qed.
Lemma vals_ok w fl T P : w (at_ fl "T") 0%nat = T -> w (at_ fl "P") 0%nat = P -> (forall x, In x prop_names -> w (at_ fl x) 0%nat = props T P x) ->
  forall c, gas2 (w (at_ fl "T") 0%nat) (w (at_ fl "P") 0%nat / ufac (p_unit TABULAR)) c (fun x => w (at_ fl x) 0%nat).
Proof. intros HT HP H c x Hx. rewrite pu, HT, HP. replace (P / 1) with P by field. apply H. exact Hx. Qed.
Lemma vals_eq w fl : forall x, In x prop_names -> w (at_ fl x) 0%nat = (fun x => w (at_ fl x) 0%nat) x * ufac (prop_unit TABULAR x).
Proof. intros x Hx. rewrite pru by exact Hx. ring. Qed.

(* the last part of a variable name *)
Fixpoint lastp (s cur : string) : string :=
  match s with
  | EmptyString => cur
  | String c r => if orb (Ascii.eqb c ":") (Ascii.eqb c ".") then lastp r "" else lastp r (cur ++ String c EmptyString)%string
  end.
(* the stream of the examples: 400 K, Mach 1/2, at the sea level pressure of the standard atmosphere *)
Definition exPs : R := IZR 146959000 / 10 ^ 7 * ufac "psi".
Definition exS : R := 400 ^ 5 / exPs.
Definition exPt : R := (825 / 2) ^ 5 / exS.
Lemma exPs_pos : 0 < exPs.
Proof. unfold exPs. apply Rmult_lt_0_compat; [lra|apply ufac_pos]. Qed.
Definition exrho : R := exPs / (320 * 400).
Definition exW : R := exrho * 200 * 1.
Definition stat_tab : list (string * R) :=
  [("T", 400); ("P", exPs); ("Ps", exPs); ("h", 1600 * 400); ("ht", 1600 * (825 / 2)); ("S", exS); ("gamma", 5 / 4); ("Cp", 1600); ("Cv", 1280); ("rho", exrho); ("R", 320);
   ("V", 200); ("Vsonic", 400); ("Pt", exPt); ("gamt", 5 / 4); ("MN", / 2); ("area", 1); ("W", exW)].
Definition tot_tab : list (string * R) :=
  [("T", 825 / 2); ("P", exPt); ("h", 1600 * (825 / 2)); ("S", exS); ("gamma", 5 / 4); ("Cp", 1600); ("Cv", 1280); ("rho", exPt / (320 * (825 / 2))); ("R", 320);
   ("MN", / 2); ("area", 1); ("W", exW)].
(* a state: given values first, then the example stream *)
Definition est (ov : list (string * R)) : state := fun x _ =>
  match find (fun p => String.eqb (fst p) x) ov with
  | Some p => snd p
  | None => if String.eqb (lastp x "") "composition" then 0 else lookup 0 (if contains "stat" x then stat_tab else tot_tab) (lastp x "")
  end.
Lemma tot_props x : In x prop_names -> lookup 0 tot_tab x = props (825 / 2) exPt x.
Proof.
  intros H. cbn in H. repeat destruct H as [<-|H]; try contradiction; try reflexivity.
  change (exS = (825 / 2) ^ 5 / exPt). pose proof exPs_pos. unfold exPt, exS. field. lra.
Qed.
Lemma stat_props x : In x prop_names -> lookup 0 stat_tab x = props 400 exPs x.
Proof.
  intros H. cbn in H. repeat destruct H as [<-|H]; try contradiction; try reflexivity.
Qed.
Lemma stat_good w fl : w (at_ fl "h") 0%nat = 1600 * 400 -> w (at_ fl "V") 0%nat = 200 -> w (at_ fl "Vsonic") 0%nat = 400 -> w (at_ fl "gamma") 0%nat = 5 / 4 -> w (at_ fl "R") 0%nat = 320 ->
  w (at_ fl "T") 0%nat = 400 -> w (at_ fl "MN") 0%nat = / 2 -> w (at_ fl "rho") 0%nat = exrho -> w (at_ fl "area") 0%nat = 1 -> w (at_ fl "W") 0%nat = exW -> static_ok w fl (1600 * (825 / 2)).
Proof. intros. unfold static_ok. rewrite H, H0, H1, H2, H3, H4, H5, H6, H7, H8. unfold exW. repeat split; try lra. Qed.
Lemma exrho_pos : 0 < exrho. Proof. pose proof exPs_pos. unfold exrho. lra. Qed.
Section S.
Variables (nm fl fl' : string) (pi po : list promo) (w : state).
Hypothesis Hn : ok_name fl.
Hypothesis Hs : shows nm po fl fl'.
Notation rel m := (srel (tsub gas2 TABULAR nm m fl pi po) (lin (tsub gas2 TABULAR nm m fl pi po) w) (lout (tsub gas2 TABULAR nm m fl pi po) w)).
Section Tot.
Hypothesis Hv : forall x, In x ["T"; "P"; "h"; "S"; "gamma"; "Cp"; "Cv"; "rho"; "R"] -> w (at_ fl' x) 0%nat = lookup 0 tot_tab x.
Lemma tot_v : forall c, gas2 (w (at_ fl' "T") 0%nat) (w (at_ fl' "P") 0%nat / ufac (p_unit TABULAR)) c (fun x => w (at_ fl' x) 0%nat).
Proof.
  apply vals_ok with (T := 825 / 2) (P := exPt); [rewrite Hv by inp; reflexivity|rewrite Hv by inp; reflexivity|].
  intros x Hx. rewrite <- tot_props by exact Hx. apply Hv. cbn in Hx |- *. tauto.
Qed.
Lemma ex_TP : (forall x, In x ["T"; "P"; "composition"] -> same w (at_ fl' x) (gname nm pi x)) -> (forall x, In x prop_names -> same w (at_ fl' x) (gname nm po x)) -> rel total_TP.
Proof. intros. eapply (mk_TP gas2 TABULAR gas2_local nm fl fl' pi po w Hn Hs); [apply tot_v|apply vals_eq|assumption|assumption]. Qed.
Lemma ex_hP : (forall x, In x ["h"; "P"; "composition"] -> same w (at_ fl' x) (gname nm pi x)) ->
  (forall x, In x ["T"; "S"; "gamma"; "Cp"; "Cv"; "rho"; "R"] -> same w (at_ fl' x) (gname nm po x)) -> w (gname nm po "base_thermo.h") 0%nat = w (at_ fl' "h") 0%nat -> rel total_hP.
Proof. intros. eapply (mk_hP gas2 TABULAR gas2_local nm fl fl' pi po w Hn Hs); [apply tot_v|apply vals_eq|assumption ..]. Qed.
Lemma ex_SP : (forall x, In x ["S"; "P"; "composition"] -> same w (at_ fl' x) (gname nm pi x)) ->
  (forall x, In x ["T"; "h"; "gamma"; "Cp"; "Cv"; "rho"; "R"] -> same w (at_ fl' x) (gname nm po x)) -> w (gname nm po "base_thermo.S") 0%nat = w (at_ fl' "S") 0%nat -> rel total_SP.
Proof. intros. eapply (mk_SP gas2 TABULAR gas2_local nm fl fl' pi po w Hn Hs); [apply tot_v|apply vals_eq|assumption ..]. Qed.
End Tot.
Section Stat.
Hypothesis Hv : forall x, In x ["T"; "P"; "h"; "S"; "gamma"; "Cp"; "Cv"; "rho"; "R"; "V"; "Vsonic"; "MN"; "area"; "W"] -> w (at_ fl' x) 0%nat = lookup 0 stat_tab x.
Hypothesis Hc : same w (at_ fl' "composition") (gname nm pi "flow.composition").
Hypothesis Hht : w (gname nm pi "ht") 0%nat = 1600 * (825 / 2).
Lemma stat_v : forall c, gas2 (w (at_ fl' "T") 0%nat) (w (at_ fl' "P") 0%nat / ufac (p_unit TABULAR)) c (fun x => w (at_ fl' x) 0%nat).
Proof.
  apply vals_ok with (T := 400) (P := exPs); [rewrite Hv by inp; reflexivity|rewrite Hv by inp; reflexivity|].
  intros x Hx. rewrite <- stat_props by exact Hx. apply Hv. cbn in Hx |- *. tauto.
Qed.
Lemma stat_f : static_ok w fl' (w (gname nm pi "ht") 0%nat).
Proof. rewrite Hht. apply stat_good; rewrite Hv by inp; reflexivity. Qed.
Lemma stat_nz : w (gname nm pi "ht") 0%nat <> 0 /\ 0 < w (at_ fl' "gamma") 0%nat * w (at_ fl' "R") 0%nat * w (at_ fl' "T") 0%nat /\ w (at_ fl' "rho") 0%nat <> 0 /\
  / 10 ^ 16 <= w (at_ fl' "MN") 0%nat /\ w (at_ fl' "area") 0%nat <> 0 /\ 0 < w (at_ fl' "V") 0%nat /\ 0 < w (at_ fl' "gamma") 0%nat /\ 0 < w (at_ fl' "R") 0%nat /\ 0 < w (at_ fl' "T") 0%nat.
Proof.
  rewrite Hht, !Hv by inp. change (1600 * (825 / 2) <> 0 /\ 0 < 5 / 4 * 320 * 400 /\ exrho <> 0 /\ / 10 ^ 16 <= / 2 /\ 1 <> 0 /\ 0 < 200 /\ 0 < 5 / 4 /\ 0 < 320 /\ 0 < 400).
  pose proof exrho_pos. repeat match goal with |- _ /\ _ => split end; try lra.
Qed.
Lemma ex_MN : (forall x, In x ["S"; "W"; "MN"] -> same w (at_ fl' x) (gname nm pi x)) ->
  (forall x, In x ["T"; "h"; "gamma"; "Cp"; "Cv"; "rho"; "R"; "V"; "Vsonic"; "area"] -> same w (at_ fl' x) (gname nm po x)) -> same w (at_ fl' "P") (gname nm po "Ps") ->
  w (gname nm po "base_thermo.S") 0%nat = w (at_ fl' "S") 0%nat -> rel static_MN.
Proof. intros. destruct stat_nz as (N1 & N2 & N3 & N4 & N5 & _). eapply (mk_MN gas2 TABULAR gas2_local nm fl fl' pi po w Hn Hs); [apply stat_v|apply vals_eq|assumption ..|apply stat_f]. Qed.
Lemma ex_A : (forall x, In x ["S"; "W"; "area"] -> same w (at_ fl' x) (gname nm pi x)) ->
  (forall x, In x ["T"; "h"; "gamma"; "Cp"; "Cv"; "rho"; "R"; "V"; "Vsonic"; "MN"] -> same w (at_ fl' x) (gname nm po x)) -> same w (at_ fl' "P") (gname nm po "Ps") ->
  w (gname nm po "base_thermo.S") 0%nat = w (at_ fl' "S") 0%nat -> rel static_A.
Proof. intros. destruct stat_nz as (N1 & N2 & N3 & N4 & N5 & _). eapply (mk_A gas2 TABULAR gas2_local nm fl fl' pi po w Hn Hs); [apply stat_v|apply vals_eq|assumption ..|apply stat_f]. Qed.
Lemma ex_Ps : (forall x, In x ["S"; "W"] -> same w (at_ fl' x) (gname nm pi x)) ->
  (forall x, In x ["T"; "h"; "gamma"; "Cp"; "Cv"; "rho"; "R"; "V"; "Vsonic"; "MN"; "area"] -> same w (at_ fl' x) (gname nm po x)) -> same w (at_ fl' "P") (gname nm pi "Ps") ->
  w (gname nm po "base_thermo.S") 0%nat = w (at_ fl' "S") 0%nat -> rel static_Ps.
Proof. intros. destruct stat_nz as (N1 & N2 & N3 & N4 & N5 & N6 & N7 & N8 & N9). eapply (mk_Ps gas2 TABULAR gas2_local nm fl fl' pi po w Hn Hs); [apply stat_v|apply vals_eq|assumption ..|apply stat_f]. Qed.
End Stat.
End S.
Ltac each := let x := fresh in let H := fresh in intros x H; cbn in H; repeat destruct H as [<-|H]; try contradiction; first [reflexivity | let k := fresh in intros k; reflexivity].
Ltac shx := match goal with |- shows ?n _ ?f _ => first [exact (shows_glob n f) | exact (shows_none n f) | apply shows_pre; reflexivity] end.
Ltac okx := split; [reflexivity|discriminate].
Ltac samex := let k := fresh in intros k; reflexivity.
Ltac ex_sub := cbv beta iota delta [stat_mode];
  match goal with
  | |- srel (tsub _ _ _ total_TP _ _ _) _ _ => eapply ex_TP; [okx|shx|each|each|each]
  | |- srel (tsub _ _ _ total_hP _ _ _) _ _ => eapply ex_hP; [okx|shx|each|each|each|reflexivity]
  | |- srel (tsub _ _ _ total_SP _ _ _) _ _ => eapply ex_SP; [okx|shx|each|each|each|reflexivity]
  | |- srel (tsub _ _ _ static_MN _ _ _) _ _ => eapply ex_MN; [okx|shx|each|samex|reflexivity|each|each|samex|reflexivity]
  | |- srel (tsub _ _ _ static_A _ _ _) _ _ => eapply ex_A; [okx|shx|each|samex|reflexivity|each|each|samex|reflexivity]
  | |- srel (tsub _ _ _ static_Ps _ _ _) _ _ => eapply ex_Ps; [okx|shx|each|samex|reflexivity|each|each|samex|reflexivity]
  end.
Ltac ex_conns := let a := fresh in let b := fresh in let H := fresh in let k := fresh in
  intros a b H k; cbn in H; repeat destruct H as [H|H]; try contradiction; injection H as <- <-; reflexivity.
Lemma group_make nm g pi po w w' : solves g w' -> (forall x, In x (g_ins g) -> forall k, w' x k = w (gname nm pi x) k) -> (forall x, In x (g_outs g) -> forall k, w' x k = w (gname nm po x) k) ->
  srel (group_sub nm g pi po) (lin (group_sub nm g pi po) w) (lout (group_sub nm g pi po) w).
Proof.
  intros H Hi Ho. cbn [group_sub srel]. exists w'. split; [exact H|].
  split; intros x k Hx; unfold lin, lout, group_sub; cbn [sname pin pout sins souts]; rewrite unit_plain, ufac_none; [rewrite Hi by exact Hx|rewrite Ho by exact Hx]; field.
Qed.
(* values of every variable in a computed list of names *)
Ltac allx := let x := fresh in let H := fresh in let k := fresh in intros x H k;
  match type of H with In _ ?l => let l' := eval vm_compute in l in change (In x l') in H end; repeat destruct H as [<-|H]; try contradiction; reflexivity.
