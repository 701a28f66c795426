(* From a solved subsystem of an element to facts about the element's variables. *)
From Coq Require Import FunctionalExtensionality Ascii Lia.
From Verif Require Import Lib_R Spec_Wire Model_Thermo Proofs_Wire Prop_Static Prop_Thermo Model_Elem1.
Open Scope string_scope. Open Scope list_scope. Open Scope R_scope.

Lemma unit_plain l x : unit_of (plain l) x = "".
Proof. unfold unit_of, plain. induction l as [|y r IH]; cbn; [reflexivity|]. destruct (String.eqb x y); [reflexivity|exact IH]. Qed.
Lemma ufac_none : ufac "" = 1. Proof. reflexivity. Qed.
(* a solved group inside another group: its own state, read through the promotions *)
Lemma group_open nm g pi po w : srel (group_sub nm g pi po) (lin (group_sub nm g pi po) w) (lout (group_sub nm g pi po) w) ->
  exists w', solves g w' /\ (forall x k, In x (g_ins g) -> w' x k = w (gname nm pi x) k) /\ (forall x k, In x (g_outs g) -> w' x k = w (gname nm po x) k).
Proof.
  cbn [group_sub srel]. intros [w' [H1 [H2 H3]]]. exists w'. split; [exact H1|]. split; intros x k Hx; [rewrite (H2 x k Hx)|rewrite (H3 x k Hx)];
    unfold lin, lout, group_sub; cbn [sname pin pout sins souts]; rewrite unit_plain, ufac_none; field.
Qed.
Lemma gname_glob nm pre x : gname nm [PG pre] (pre ++ x) = (pre ++ x)%string.
Proof. unfold gname, pname. rewrite prefix_app. reflexivity. Qed.
Lemma gname_nil nm x : gname nm [] x = (nm ++ "." ++ x)%string.
Proof. reflexivity. Qed.
Lemma same_sym w a b : same w a b -> same w b a. Proof. intros H k. symmetry. apply H. Qed.
Lemma same_trans w a b c : same w a b -> same w b c -> same w a c. Proof. intros H1 H2 k. rewrite (H1 k). apply H2. Qed.
Lemma same_refl w a : same w a a. Proof. intros k. reflexivity. Qed.
Lemma same_0 w a b : same w a b -> w a 0%nat = w b 0%nat. Proof. intros H. apply H. Qed.

(* group-level outputs of a total station: every property is also available under its plain name *)
Lemma tot_plain tp me m fl w : In m [total_TP; total_SP; total_hP] -> solves (thermo tp me m fl) w ->
  forall x, In x (fixed_outs m) -> dotted x = false -> same w (at_ fl x) x.
Proof.
  intros Hm [Hs _] x Hx Hd.
  assert (Hf : forall y, In y (names eng_props) -> same w (at_ fl y) (gname "flow" (flow_pin m) y)) by (apply flow_fact; apply Hs; cbn in Hm; repeat destruct Hm as [<-|Hm]; inp).
  cbn in Hm. repeat destruct Hm as [<-|Hm]; try contradiction; cbn in Hx; repeat destruct Hx as [<-|Hx]; try contradiction; try discriminate Hd; apply Hf; inp.
Qed.

Section T.
Variable tp : R -> R -> (nat -> R) -> (string -> R) -> Prop.
Variable me : method.
(* the station variables of the inner group, seen from outside under the station name fl' *)
Definition shows (nm : string) (po : list promo) (fl fl' : string) : Prop := forall x, gname nm po (at_ fl x) = at_ fl' x.
Lemma shows_glob nm fl : shows nm [PG (fl ++ ":")%string] fl fl.
Proof. intros x. unfold at_. rewrite <- sapp_assoc. apply gname_glob. Qed.
Lemma shows_none nm fl : shows nm [] fl (nm ++ "." ++ fl)%string.
Proof. intros x. rewrite gname_nil. unfold at_. rewrite !sapp_assoc. reflexivity. Qed.
Lemma shows_pre nm pre fl : prefix pre fl = true -> shows nm [PG pre] fl fl.
Proof.
  intros H x. unfold gname, pname. replace (prefix pre (at_ fl x)) with true; [reflexivity|]. symmetry. unfold at_.
  revert fl H. induction pre as [|c pre IH]; intros fl H; [destruct (fl ++ ":" ++ x)%string; reflexivity|]. destruct fl as [|d fl]; [discriminate|]. cbn in *.
  destruct (ascii_dec c d); [apply IH; exact H|discriminate].
Qed.

Lemma station_move comp w w' fl fl' : (forall x, In x ["T"; "P"; "h"; "S"; "gamma"; "Cp"; "Cv"; "rho"; "R"] -> w' (at_ fl x) 0%nat = w (at_ fl' x) 0%nat) ->
  station tp me comp w' fl -> station tp me comp w fl'.
Proof.
  intros E (p & H1 & H2). exists p. rewrite <- (E "T"), <- (E "P") by inp. split; [exact H1|]. intros x Hx. rewrite <- E by (cbn in Hx |- *; tauto). apply H2. exact Hx.
Qed.
Variables (nm fl fl' : string) (pi po : list promo) (w : state).
Hypothesis Hfl : ok_name fl.
Hypothesis Hsh : shows nm po fl fl'.
Let g x := gname nm pi x.
Lemma out_vars m w' : (forall x k, In x (g_outs (thermo tp me m fl)) -> w' x k = w (gname nm po x) k) -> forall x, In x (station_vars m) -> forall k, w' (at_ fl x) k = w (at_ fl' x) k.
Proof. intros H x Hx k. rewrite H by (apply C42_outputs; assumption). rewrite Hsh. reflexivity. Qed.
Lemma in_vars m w' : (forall x k, In x (g_ins (thermo tp me m fl)) -> w' x k = w (g x) k) -> forall x, In x (needed m) -> forall k, w' x k = w (g x) k.
Proof. intros H x Hx k. apply H. apply C42_inputs; [assumption|]. apply in_or_app. left. exact Hx. Qed.

Ltac topen H m := destruct (group_open _ _ _ _ _ H) as (w' & Hw & Hi & Ho); pose proof (in_vars m w' Hi) as Ei; pose proof (out_vars m w' Ho) as Eo.
Ltac mvst := eapply station_move; [|eassumption]; intros x Hx; match goal with Eo : forall x, In x (station_vars _) -> _ |- _ => apply Eo; cbn in Hx |- *; tauto end.
Definition total_facts : Prop := station tp me (w (at_ fl' "composition")) w fl' /\ same w (at_ fl' "composition") (g "composition") /\ same w (at_ fl' "P") (g "P").
Lemma sub_TP : srel (tsub tp me nm total_TP fl pi po) (lin (tsub tp me nm total_TP fl pi po) w) (lout (tsub tp me nm total_TP fl pi po) w) ->
  total_facts /\ same w (at_ fl' "T") (g "T") /\ (forall x, In x ["h"; "S"; "gamma"] -> same w (gname nm po x) (at_ fl' x)).
Proof.
  intros H. unfold tsub in H. topen H total_TP. destruct (C42_total_TP _ _ _ _ Hw) as (H1 & H2 & H3 & H4).
  assert (Ec : w' (at_ fl "composition") = w (at_ fl' "composition")) by (apply functional_extensionality; apply Eo; inp). rewrite Ec in H1.
  unfold total_facts. repeat split; try solve [intros k; rewrite <- Eo, <- ?Ei by inp; auto].
  - mvst.
  - intros x Hx k. rewrite <- Ho, <- Eo by (try (rewrite thermo_outs; apply in_or_app; left); cbn in Hx |- *; tauto). symmetry.
    apply (tot_plain tp me total_TP fl w' ltac:(inp) Hw); cbn in Hx |- *; [tauto|]. repeat destruct Hx as [<-|Hx]; try reflexivity. contradiction.
Qed.
Lemma sub_hP : srel (tsub tp me nm total_hP fl pi po) (lin (tsub tp me nm total_hP fl pi po) w) (lout (tsub tp me nm total_hP fl pi po) w) ->
  total_facts /\ w (at_ fl' "h") 0%nat = w (g "h") 0%nat.
Proof.
  intros H. unfold tsub in H. topen H total_hP. destruct (C42_total_hP _ _ _ _ Hw) as (H1 & H2 & H3 & H4).
  assert (Ec : w' (at_ fl "composition") = w (at_ fl' "composition")) by (apply functional_extensionality; apply Eo; inp). rewrite Ec in H1.
  unfold total_facts. repeat split; try match goal with |- same _ _ _ => intros k end; try solve [rewrite <- Eo, <- ?Ei by inp; auto]. mvst.
Qed.
Lemma sub_SP : srel (tsub tp me nm total_SP fl pi po) (lin (tsub tp me nm total_SP fl pi po) w) (lout (tsub tp me nm total_SP fl pi po) w) ->
  total_facts /\ w (at_ fl' "S") 0%nat = w (g "S") 0%nat /\ same w (gname nm po "h") (at_ fl' "h").
Proof.
  intros H. unfold tsub in H. topen H total_SP. destruct (C42_total_SP _ _ _ _ Hw) as (H1 & H2 & H3 & H4).
  assert (Ec : w' (at_ fl "composition") = w (at_ fl' "composition")) by (apply functional_extensionality; apply Eo; inp). rewrite Ec in H1.
  unfold total_facts. repeat split; try match goal with |- same _ _ _ => intros k end; try solve [rewrite <- Eo, <- ?Ei by inp; auto].
  - mvst.
  - rewrite <- Ho, <- Eo by (try (rewrite thermo_outs; apply in_or_app; left); inp). symmetry. apply (tot_plain tp me total_SP fl w' ltac:(inp) Hw); [inp|reflexivity].
Qed.
(* what all static stations have in common *)
Definition static_facts : Prop := station tp me (w (g "composition")) w fl' /\ w (at_ fl' "S") 0%nat = w (g "S") 0%nat /\ same w (at_ fl' "W") (g "W").
Definition good_gas : Prop := 0 < w (at_ fl' "gamma") 0%nat * w (at_ fl' "R") 0%nat * w (at_ fl' "T") 0%nat /\ w (at_ fl' "rho") 0%nat <> 0.
Lemma static_ok_move w' ht : (forall x, In x (station_vars static_MN) -> forall k, w' (at_ fl x) k = w (at_ fl' x) k) -> static_ok w' fl ht -> static_ok w fl' ht.
Proof. intros E. unfold static_ok. rewrite !E by inp. auto. Qed.
Lemma sub_MN : srel (tsub tp me nm static_MN fl pi po) (lin (tsub tp me nm static_MN fl pi po) w) (lout (tsub tp me nm static_MN fl pi po) w) ->
  static_facts /\ same w (at_ fl' "MN") (g "MN") /\ (good_gas -> w (g "ht") 0%nat <> 0 -> / 10 ^ 16 <= w (g "MN") 0%nat -> static_ok w fl' (w (g "ht") 0%nat)).
Proof.
  intros H. unfold tsub in H. topen H static_MN. destruct (C42_static_MN _ _ _ _ Hw) as (H1 & H2 & H3 & H4 & H5 & H6).
  assert (Ec : w' "composition" = w (g "composition")) by (apply functional_extensionality; apply Ei; inp). rewrite Ec in H1.
  unfold static_facts. repeat match goal with |- _ /\ _ => split end; try match goal with |- same _ _ _ => intros k end; try solve [rewrite <- Eo, <- ?Ei by inp; auto].
  - mvst.
  - intros [G1 G2] G3 G4. apply (static_ok_move w' _ Eo). rewrite <- !Ei in * by inp. apply H6; rewrite ?Eo by inp; assumption.
Qed.
Lemma sub_A : srel (tsub tp me nm static_A fl pi po) (lin (tsub tp me nm static_A fl pi po) w) (lout (tsub tp me nm static_A fl pi po) w) ->
  static_facts /\ same w (at_ fl' "area") (g "area") /\ (good_gas -> w (g "ht") 0%nat <> 0 -> w (g "area") 0%nat <> 0 -> static_ok w fl' (w (g "ht") 0%nat)).
Proof.
  intros H. unfold tsub in H. topen H static_A. destruct (C42_static_A _ _ _ _ Hw) as (H1 & H2 & H3 & H4 & H5 & H6).
  assert (Ec : w' "composition" = w (g "composition")) by (apply functional_extensionality; apply Ei; inp). rewrite Ec in H1.
  unfold static_facts. repeat match goal with |- _ /\ _ => split end; try match goal with |- same _ _ _ => intros k end; try solve [rewrite <- Eo, <- ?Ei by inp; auto].
  - mvst.
  - intros [G1 G2] G3 G4. apply (static_ok_move w' _ Eo). rewrite <- !Ei in * by inp. apply H6; rewrite ?Eo by inp; assumption.
Qed.
Lemma sub_Ps : srel (tsub tp me nm static_Ps fl pi po) (lin (tsub tp me nm static_Ps fl pi po) w) (lout (tsub tp me nm static_Ps fl pi po) w) ->
  static_facts /\ same w (at_ fl' "P") (g "Ps") /\
  (0 < w (at_ fl' "gamma") 0%nat -> 0 < w (at_ fl' "R") 0%nat -> 0 < w (at_ fl' "T") 0%nat -> w (at_ fl' "rho") 0%nat <> 0 -> w (at_ fl' "h") 0%nat < w (g "ht") 0%nat ->
   static_ok w fl' (w (g "ht") 0%nat)).
Proof.
  intros H. unfold tsub in H. topen H static_Ps. destruct (C42_static_Ps _ _ _ _ Hw) as (H1 & H2 & H3 & H4 & H6).
  assert (Ec : w' "composition" = w (g "composition")) by (apply functional_extensionality; apply Ei; inp). rewrite Ec in H1.
  unfold static_facts. repeat match goal with |- _ /\ _ => split end; try match goal with |- same _ _ _ => intros k end; try solve [rewrite <- Eo, <- ?Ei by inp; auto].
  - mvst.
  - intros G1 G2 G3 G4 G5. apply (static_ok_move w' _ Eo). rewrite <- !Ei in * by inp. apply H6; rewrite ?Eo by inp; assumption.
Qed.
End T.
