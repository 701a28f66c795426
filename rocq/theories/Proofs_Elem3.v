(* Names and units of subsystems whose variables are generated from a list of bleed names. *)
From Coq Require Import FunctionalExtensionality Ascii Lia.
From Verif Require Import Lib_R Spec_Wire Model_Thermo Proofs_Wire Prop_Static Prop_Thermo Model_Elem1 Proofs_Elem Prop_Station.
Open Scope string_scope. Open Scope list_scope. Open Scope R_scope.

Lemma lookup_uniq {A} (d a : A) l x : (forall p, In p l -> fst p = x -> snd p = a) -> In x (map fst l) -> lookup d l x = a.
Proof.
  induction l as [|[y v] r IH]; cbn; [intros _ []|]. intros H1 H2. destruct (String.eqb x y) eqn:E.
  - apply String.eqb_eq in E. subst. apply (H1 (y, v)); auto.
  - apply IH; [intros p Hp; apply H1; auto|]. destruct H2 as [->|H2]; [rewrite String.eqb_refl in E; discriminate|exact H2].
Qed.
(* two generated names with incompatible suffixes differ *)
Lemma suffix_clash c b s t : suffixb s t = false -> suffixb t s = false -> (c ++ s)%string <> (b ++ t)%string.
Proof.
  intros H1 H2. revert b. induction c as [|x c IH]; intros b E.
  - cbn in E. subst s. rewrite suffixb_app in H2. discriminate.
  - destruct b as [|y b]; cbn in E.
    + subst t. change (suffixb s ((String x c) ++ s) = false) in H1. rewrite suffixb_app in H1. discriminate.
    + injection E as _ E. exact (IH b E).
Qed.
Lemma pname_skip_PN l r x : ~ In x l -> pname (map PN l ++ r) x = pname r x.
Proof. induction l as [|y l IH]; cbn; [reflexivity|]. intros H. destruct (String.eqb x y) eqn:E; [apply String.eqb_eq in E; subst; tauto|]. apply IH. tauto. Qed.
Lemma pname_in_PN l r x : In x l -> pname (map PN l ++ r) x = Some x.
Proof. induction l as [|y l IH]; cbn; [intros []|]. intros H. destruct (String.eqb x y) eqn:E; [reflexivity|]. destruct H as [->|H]; [rewrite String.eqb_refl in E; discriminate|auto]. Qed.
(* pairs of an original name and an alias, generated from a list *)
Lemma pname_in_PA (f g : string -> string) l r b : In b l -> (forall c, In c l -> f c = f b -> g c = g b) -> pname (map (fun c => PA (f c) (g c)) l ++ r) (f b) = Some (g b).
Proof.
  induction l as [|y l IH]; cbn; [intros []|]. intros H U. destruct (String.eqb (f b) (f y)) eqn:E.
  - apply String.eqb_eq in E. f_equal. apply U; auto.
  - destruct H as [->|H]; [rewrite String.eqb_refl in E; discriminate|]. apply IH; auto.
Qed.
Lemma pname_skip_PA (f g : string -> string) l r x : (forall c, In c l -> f c <> x) -> pname (map (fun c => PA (f c) (g c)) l ++ r) x = pname r x.
Proof. induction l as [|y l IH]; cbn; [reflexivity|]. intros H. destruct (String.eqb x (f y)) eqn:E; [apply String.eqb_eq in E; exfalso; apply (H y); auto|]. apply IH. intros c Hc. apply H. auto. Qed.
Lemma flat_map_map {A B C} (f : A -> list B) (g : B -> C) l : flat_map (fun x => map g (f x)) l = map g (flat_map f l).
Proof. induction l; cbn; [reflexivity|]. rewrite map_app, IHl. reflexivity. Qed.
Lemma sapp_inj_r (a b c : string) : (a ++ c)%string = (b ++ c)%string -> a = b.
Proof.
  revert b. induction a as [|x a IH]; intros b E; destruct b as [|y b]; cbn in E; auto.
  - apply (f_equal String.length) in E. cbn in E. clear -E. exfalso. revert E. assert (L : forall s t, String.length (s ++ t) = (String.length s + String.length t)%nat) by (induction s; cbn; intros; [|rewrite IHs]; reflexivity). rewrite L. lia.
  - apply (f_equal String.length) in E. cbn in E. clear -E. exfalso. revert E. assert (L : forall s t, String.length (s ++ t) = (String.length s + String.length t)%nat) by (induction s; cbn; intros; [|rewrite IHs]; reflexivity). rewrite L. lia.
  - injection E as -> E. f_equal. apply IH. exact E.
Qed.
(* every property of a static station is also available under its plain name; the pressure is called Ps *)
Lemma stat_plain tp me m fl w : In m [static_MN; static_A; static_Ps] -> solves (thermo tp me m fl) w ->
  forall x, In x (fixed_outs m) -> dotted x = false -> same w (at_ fl (if String.eqb x "Ps" then "P" else x)) x.
Proof.
  intros Hm [Hs _] x Hx Hd.
  assert (Hf : forall y, In y (names eng_props) -> same w (at_ fl y) (gname "flow" (flow_pin m) y)) by (apply flow_fact; apply Hs; cbn in Hm; repeat destruct Hm as [<-|Hm]; inp).
  assert (Hg : forall y, In y (names eng_static) -> same w (at_ fl y) y) by (apply flow_static_fact; apply Hs; cbn in Hm; repeat destruct Hm as [<-|Hm]; inp).
  cbn in Hm. repeat destruct Hm as [<-|Hm]; try contradiction; cbn in Hx; repeat destruct Hx as [<-|Hx]; try contradiction; try discriminate Hd; first [apply Hf; inp|apply Hg; inp].
Qed.
(* the plain output names of a Thermo group, seen from outside *)
Lemma sub_plain tp me m nm fl fl' pi po w : ok_name fl -> shows nm po fl fl' ->
  srel (tsub tp me nm m fl pi po) (lin (tsub tp me nm m fl pi po) w) (lout (tsub tp me nm m fl pi po) w) ->
  forall x, In x (fixed_outs m) -> dotted x = false -> same w (gname nm po x) (at_ fl' (if String.eqb x "Ps" then "P" else x)).
Proof.
  intros Hn Hs H x Hx Hd k. unfold tsub in H. destruct (group_open _ _ _ _ _ H) as (w' & Hw & Hi & Ho).
  assert (E : forall y, In y (station_vars m) -> forall k, w' (at_ fl y) k = w (at_ fl' y) k).
  { intros y Hy j. rewrite Ho by (apply C42_outputs; assumption). rewrite Hs. reflexivity. }
  rewrite <- Ho by (rewrite thermo_outs; apply in_or_app; left; exact Hx).
  assert (Y : In (if String.eqb x "Ps" then "P" else x) (station_vars m)).
  { destruct m; cbn in Hx |- *; repeat destruct Hx as [<-|Hx]; try contradiction; try discriminate Hd; cbn; tauto. }
  rewrite <- E by exact Y. symmetry. destruct m.
  1-3: assert (P : String.eqb x "Ps" = false) by (cbn in Hx; repeat destruct Hx as [<-|Hx]; try contradiction; try discriminate Hd; reflexivity); rewrite P; eapply tot_plain; [|exact Hw|exact Hx|exact Hd]; inp.
  all: eapply stat_plain; [|exact Hw|exact Hx|exact Hd]; inp.
Qed.
