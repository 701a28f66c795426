(* C58: what an off-design element needs beyond the inputs of the design element: its default connections provide all of it, except for the duct. *)
From Coq Require Import Lia.
From Verif Require Import Lib_R Lib_Loop Spec_Wire Model_Thermo Proofs_Wire Prop_Thermo Model_ThermoAdd Model_Elem1 Model_Elem2 Proofs_Elem Prop_Station Prop_Station2 Prop_Station3 Prop_Station5 Model_Cycle Prop_Cycle.
Open Scope string_scope. Open Scope list_scope. Open Scope R_scope.

(* default_des_od_conns targets: inlet.py:131, duct.py:157, splitter.py:82, bleed_out.py:90, combustor.py:65, compressor.py:402, turbine.py:428, mixer.py:178-186 *)
Definition default_targets (k : ekind) : list string :=
  match k with
  | EStart _ | EFlight _ | ECfd | ENozzle _ _ => []
  | EInlet _ | EDuct _ _ _ | EBleedOut _ _ | ECombustor _ _ => ["area"]
  | ESplitter _ => ["area1"; "area2"]
  | ECompressor _ _ _ _ => ["s_Wc"; "s_PR"; "s_eff"; "s_Nc"; "area"]
  | ETurbine _ _ _ _ => ["s_Wp"; "s_PR"; "s_eff"; "s_Np"; "area"]
  | EMixer _ one => ["area"; if one then "Fl_I1_stat_calc.area" else "Fl_I2_stat_calc.area"]
  end.
(* starting values for the Mach number search, which no solution depends on, and the names by which the design element's static calculation calls the area it finds *)
Definition guesses : list string := ["out_stat.area"; "out1_stat.area"; "out2_stat.area"; "out_stat.guess:MN"; "out1_stat.guess:MN"; "out2_stat.guess:MN"; "Fl_I1_stat_calc.guess:MN"; "Fl_I2_stat_calc.guess:MN"].
Definition loss_coefficient (k : ekind) : list string := match k with EDuct _ true _ => ["s_dPqP"] | _ => [] end.

Lemma split_ins gd go (E : list string) :
  (forall s, In s (subs go) -> In s (subs gd) \/ forall x, In x (in_names s) -> In x E \/ In x (flat_map in_names (subs gd))) ->
  (forall s, In s (subs gd) -> In s (subs go) \/ forall x, In x (out_names s) -> In x E \/ In x (g_outs go)) ->
  (forall p, In p (conns gd) -> In p (conns go)) ->
  forall x, In x (g_ins go) -> In x (g_ins gd) \/ In x E.
Proof.
  intros H1 H2 H3 x H. apply in_g_ins in H as (Hi & Ho & Hc). destruct (in_dec string_dec x E) as [HE|HE]; [right; exact HE|]. left. apply in_g_ins. split; [|split].
  - apply in_flat_map in Hi as (s & Hs & Hx). destruct (H1 s Hs) as [K|K]; [apply in_flat_map; exists s; auto|]. destruct (K x Hx); [contradiction|assumption].
  - intros K. unfold g_outs in K. apply in_flat_map in K as (s & Hs & Hx). destruct (H2 s Hs) as [K|K]; [apply Ho; apply in_flat_map; exists s; auto|]. destruct (K x Hx); contradiction.
  - intros K. apply Hc. apply in_map_iff in K as (p & <- & Hp). apply in_map. auto.
Qed.
Definition sub_b (l m : list string) : bool := forallb (fun x => memb x m) l.
Lemma sub_ok l m : sub_b l m = true -> forall x, In x l -> In x m.
Proof. intros H x Hx. unfold sub_b in H. rewrite forallb_forall in H. apply memb_in. auto. Qed.
Lemma sub_ok2 l a b : sub_b l (a ++ b) = true -> forall x, In x l -> In x a \/ In x b.
Proof. intros H x Hx. apply in_app_iff. exact (sub_ok _ _ H x Hx). Qed.
Ltac closed_ins := let H := fresh in intros H; apply in_app_iff; revert H; apply sub_ok; vm_compute; reflexivity.

(* the parts of a list that a fixed list of names can be looked up in *)
Lemma in_part {A B} (f : A -> list B) y (l m : list A) : (forall s, In s l -> In s m) -> In y (flat_map f l) -> In y (flat_map f m).
Proof. intros H K. apply in_flat_map in K as (s & Hs & Hy). apply in_flat_map. exists s. auto. Qed.
Section S.
Variables (tp : R -> R -> (nat -> R) -> (string -> R) -> Prop) (me : method).
Ltac last_outs y Hy E := match goal with |- _ \/ In y (?A ++ ?C) => let Q := fresh in assert (Q : In y E \/ In y C); [revert Hy; apply sub_ok2; destruct me; vm_compute; reflexivity|destruct Q as [Q|Q]; [left; exact Q|right; apply in_or_app; right; exact Q]] end.
Notation E0 := (("area" :: nil) ++ guesses).
Lemma bleed_ins bs x : In x (g_ins (bleed_out tp me bs true false)) -> In x (g_ins (bleed_out tp me bs true true)) \/ In x E0.
Proof.
  revert x. apply split_ins; [| |intros p Hp; exact Hp]; intros s Hs; unfold bleed_out in Hs |- *; cbn [subs] in Hs |- *; rewrite !app_assoc in Hs |- *; (apply in_app_iff in Hs as [Hs|[<-|[]]]; [left; apply in_or_app; left; exact Hs|right; intros y Hy]).
  - match goal with |- _ \/ In y (flat_map in_names ((?A ++ ?B) ++ ?C)) => assert (Q : In y E0 \/ In y (flat_map in_names (B ++ C))); [revert Hy; apply sub_ok2; destruct me; vm_compute; reflexivity|] end.
    destruct Q as [Q|Q]; [left; exact Q|right]. revert Q. apply in_part. intros s H. rewrite !in_app_iff in *. tauto.
  - unfold g_outs. cbn [subs]. rewrite flat_map_app. last_outs y Hy constr:(E0).
Qed.
Notation Ec := (["s_Wc"; "s_PR"; "s_eff"; "s_Nc"; "area"] ++ guesses).
Lemma comp_ins (st : bool) mp rs bs x : In x (g_ins (compressor tp me mp rs bs st false)) -> In x (g_ins (compressor tp me mp rs bs st true)) \/ In x Ec.
Proof.
  set (od := group_sub "map" (compressor_map mp rs false) (c_map_pin false) (c_map_pout false)). set (des := group_sub "map" (compressor_map mp rs true) (c_map_pin true) (c_map_pout true)).
  assert (M1 : forall y, In y (in_names od) -> In y Ec \/ In y (flat_map in_names (des :: enth_rise_sub :: press_rise_sub :: c_corr_sub :: c_eff_poly_sub :: nil))) by (apply sub_ok2; vm_compute; reflexivity).
  assert (M2 : forall y, In y (out_names des) -> In y Ec \/ In y (flat_map out_names (od :: nil))) by (apply sub_ok2; vm_compute; reflexivity).
  revert x. apply split_ins; [| |intros p Hp; exact Hp]; intros s Hs; unfold compressor in Hs |- *; cbn [subs] in Hs |- *; fold od des in Hs |- *; (apply in_app_iff in Hs as [Hs|Hs]; [|apply in_app_iff in Hs as [Hs|Hs]]).
  - cbn [In] in Hs. destruct Hs as [Hs|[Hs|[<-|Hs]]]; try (left; apply in_or_app; left; cbn [In]; tauto). right. intros y Hy. destruct (M1 y Hy) as [Q|Q]; [left; exact Q|right]. revert Q. apply in_part. intros s H. apply in_or_app; left. cbn [In] in H |- *. tauto.
  - left. apply in_or_app; right; apply in_or_app; left. exact Hs.
  - destruct st; [|left; apply in_or_app; right; apply in_or_app; right; exact Hs]. destruct Hs as [<-|[]]. right. intros y Hy.
    match goal with |- _ \/ In y (flat_map in_names (?A ++ ?B ++ ?C)) => assert (Q : In y Ec \/ In y (flat_map in_names (nth 4 A des :: C))); [revert Hy; apply sub_ok2; destruct me; vm_compute; reflexivity|] end.
    destruct Q as [Q|Q]; [left; exact Q|right]. revert Q. apply in_part. intros s [<-|H]; [apply in_or_app; left; cbn [nth In]; tauto|]. do 2 (apply in_or_app; right). exact H.
  - cbn [In] in Hs. destruct Hs as [Hs|[Hs|[<-|Hs]]]; try (left; apply in_or_app; left; cbn [In]; tauto). right. intros y Hy. destruct (M2 y Hy) as [Q|Q]; [left; exact Q|right]. unfold g_outs. cbn [subs]. revert Q. apply in_part. intros s [<-|[]]. apply in_or_app; left. cbn [In]. tauto.
  - left. apply in_or_app; right; apply in_or_app; left. exact Hs.
  - destruct st; [|left; apply in_or_app; right; apply in_or_app; right; exact Hs]. destruct Hs as [<-|[]]. right. intros y Hy. unfold g_outs. cbn [subs]. rewrite !flat_map_app, app_assoc. last_outs y Hy constr:(Ec).
Qed.
Notation Et := (["s_Wp"; "s_PR"; "s_eff"; "s_Np"; "area"] ++ guesses).
Lemma turb_ins (st : bool) mp a bs x : In x (g_ins (turbine tp me mp a bs st false)) -> In x (g_ins (turbine tp me mp a bs st true)) \/ In x Et.
Proof.
  set (od := group_sub "map" (turbine_map mp false) (t_map_pin false) (t_map_pout false)). set (des := group_sub "map" (turbine_map mp true) (t_map_pin true) (t_map_pout true)).
  assert (M1 : forall y, In y (in_names od) -> In y Et \/ In y (flat_map in_names (des :: press_drop_sub :: t_corr_sub :: t_eff_poly_sub :: nil))) by (apply sub_ok2; vm_compute; reflexivity).
  assert (M2 : forall y, In y (out_names des) -> In y Et \/ In y (flat_map out_names (od :: nil))) by (apply sub_ok2; vm_compute; reflexivity).
  revert x. apply split_ins; [| |intros p Hp; exact Hp]; intros s Hs; unfold turbine in Hs |- *; cbn [subs] in Hs |- *; fold od des in Hs |- *;
    (apply in_app_iff in Hs as [Hs|Hs]; [|apply in_app_iff in Hs as [Hs|Hs]; [|apply in_app_iff in Hs as [Hs|Hs]; [|apply in_app_iff in Hs as [Hs|Hs]; [|apply in_app_iff in Hs as [Hs|Hs]]]]]).
  - cbn [In] in Hs. destruct Hs as [Hs|[Hs|[<-|Hs]]]; try (left; apply in_or_app; left; cbn [In]; tauto). right. intros y Hy. destruct (M1 y Hy) as [Q|Q]; [left; exact Q|right]. revert Q. apply in_part. intros s H. cbn [In] in H.
    assert (H' : (des = s \/ press_drop_sub = s \/ t_corr_sub = s) \/ t_eff_poly_sub = s) by tauto. destruct H' as [H'|H']; [apply in_or_app; left; cbn [In]; tauto|]. do 4 (apply in_or_app; right). apply in_or_app; left. cbn [In]. tauto.
  - left. apply in_or_app; right; apply in_or_app; left. exact Hs.
  - left. do 2 (apply in_or_app; right). apply in_or_app; left. exact Hs.
  - left. do 3 (apply in_or_app; right). apply in_or_app; left. exact Hs.
  - left. do 4 (apply in_or_app; right). apply in_or_app; left. exact Hs.
  - destruct st; [|left; do 5 (apply in_or_app; right); exact Hs]. destruct Hs as [<-|[]]. right. intros y Hy.
    match goal with |- _ \/ In y (flat_map in_names (?A ++ ?B ++ ?C ++ ?D ++ ?E ++ ?F)) => assert (Q : In y Et \/ In y (flat_map in_names F)); [revert Hy; apply sub_ok2; destruct me; vm_compute; reflexivity|] end.
    destruct Q as [Q|Q]; [left; exact Q|right]. revert Q. apply in_part. intros s H. do 5 (apply in_or_app; right). exact H.
  - cbn [In] in Hs. destruct Hs as [Hs|[Hs|[<-|Hs]]]; try (left; apply in_or_app; left; cbn [In]; tauto). right. intros y Hy. destruct (M2 y Hy) as [Q|Q]; [left; exact Q|right]. unfold g_outs. cbn [subs]. revert Q. apply in_part. intros s [<-|[]]. apply in_or_app; left. cbn [In]. tauto.
  - left. apply in_or_app; right; apply in_or_app; left. exact Hs.
  - left. do 2 (apply in_or_app; right). apply in_or_app; left. exact Hs.
  - left. do 3 (apply in_or_app; right). apply in_or_app; left. exact Hs.
  - left. do 4 (apply in_or_app; right). apply in_or_app; left. exact Hs.
  - destruct st; [|left; do 5 (apply in_or_app; right); exact Hs]. destruct Hs as [<-|[]]. right. intros y Hy. unfold g_outs. cbn [subs]. rewrite !flat_map_app, !app_assoc. last_outs y Hy constr:(Et).
Qed.
Lemma comb_ins (st : bool) a x : In x (g_ins (combustor tp me a st false)) -> In x (g_ins (combustor tp me a st true)) \/ In x E0.
Proof.
  revert x. apply split_ins; [| |intros p Hp; exact Hp]; intros s Hs; unfold combustor in Hs |- *; cbn [subs] in Hs |- *; (apply in_app_iff in Hs as [Hs|Hs]; [left; apply in_or_app; left; exact Hs|]);
    (destruct st; [|left; apply in_or_app; right; exact Hs]); destruct Hs as [<-|[]]; right; intros y Hy.
  - match goal with |- _ \/ In y (flat_map in_names (?A ++ ?C)) => assert (Q : In y E0 \/ In y (flat_map in_names C)); [revert Hy; apply sub_ok2; destruct me; vm_compute; reflexivity|] end.
    destruct Q as [Q|Q]; [left; exact Q|right]. revert Q. apply in_part. intros s H. apply in_or_app; right. exact H.
  - unfold g_outs. cbn [subs]. rewrite flat_map_app. last_outs y Hy constr:(E0).
Qed.
Lemma mix_ins a (one : bool) x : flow_adder a ("mix" :: nil) -> In x (g_ins (mixer tp me a one false)) -> In x (g_ins (mixer tp me a one true)) \/ In x (["area"; if one then "Fl_I1_stat_calc.area" else "Fl_I2_stat_calc.area"] ++ guesses).
Proof.
  intros Ha. destruct (flow_adder_facts a _ Ha) as (A1 & A2 & _). set (a0 := ATab (mkTabAdder 0 None ("mix" :: nil) nil)).
  assert (E1 : forall pi po, in_names (add_sub "flow_add" a pi po) = in_names (add_sub "flow_add" a0 pi po)) by (intros; unfold in_names; cbn [add_sub sins sname pin]; unfold add_ins; rewrite ?A1, ?A2; reflexivity).
  assert (E2 : forall pi po, out_names (add_sub "flow_add" a pi po) = out_names (add_sub "flow_add" a0 pi po)) by (intros; unfold out_names; cbn [add_sub souts sname pout]; unfold add_outs; rewrite ?A1, ?A2; reflexivity).
  assert (E3 : forall d, g_ins (mixer tp me a one d) = g_ins (mixer tp me a0 one d)).
  { intros d. unfold g_ins, g_outs, mixer. cbv zeta. cbn [subs conns]. rewrite !flat_map_app. cbn [flat_map]. rewrite E1, E2. reflexivity. }
  rewrite !E3. apply sub_ok2. unfold a0. destruct me, one; vm_compute; reflexivity.
Qed.
(* an input of the off-design element that the design element does not have is the target of a default connection *)
Theorem C58_off_design_inputs k x : options_ok k -> In x (g_ins (egroup tp me false k)) -> ~ In x (g_ins (egroup tp me true k)) ->
  In x (default_targets k) \/ In x guesses \/ In x (loss_coefficient k).
Proof.
  assert (F : forall (P : Prop) E, ~ P -> P \/ In x (E ++ guesses) -> In x E \/ In x guesses \/ In x (loss_coefficient k)) by (intros P E N [H|H]; [contradiction|apply in_app_iff in H as [H|H]; auto]).
  intros Ok H N. destruct k as [a|a| |st|st wm ex|st|bs st|a st|mp rs bs st|mp a bs st|nt lc|a one]; cbn [egroup default_targets] in *.
  1-3,11: exfalso; apply N; exact H.
  - apply (F _ _ N). revert H. apply sub_ok2. destruct me, st; vm_compute; reflexivity.
  - assert (K : In x (g_ins (duct tp me st true wm ex)) \/ In x (["area"] ++ guesses ++ loss_coefficient (EDuct st wm ex))); [|destruct K as [K|K]; [contradiction|apply in_app_iff in K as [K|K]; [auto|apply in_app_iff in K as [K|K]; auto]]].
    revert H. apply sub_ok2. destruct me, st, wm; vm_compute; reflexivity.
  - apply (F _ _ N). revert H. apply sub_ok2. destruct me, st; vm_compute; reflexivity.
  - destruct st; [apply (F _ _ N); apply bleed_ins; exact H|]. exfalso. apply N. exact H.
  - apply (F _ _ N). apply comb_ins. exact H.
  - apply (F _ _ N). apply comp_ins. exact H.
  - apply (F _ _ N). apply turb_ins. exact H.
  - apply (F _ _ N). apply mix_ins; [exact Ok|exact H].
Qed.
End S.
Example C58_off_design_inputs_ex tp mp rs : let k := ECompressor mp rs ("b1" :: nil) true in
  In "s_Wc" (g_ins (egroup tp CEA false k)) /\ ~ In "s_Wc" (g_ins (egroup tp CEA true k)) /\ In "PR" (g_ins (egroup tp CEA true k)) /\ ~ In "PR" (g_ins (egroup tp CEA false k)).
Proof.
  intros k. assert (T : forall x l, memb x l = true -> In x l) by (intros x l H; apply memb_in; exact H). assert (Fa : forall x l, memb x l = false -> ~ In x l) by (intros x l H; apply memb_not; exact H).
  unfold k. repeat match goal with |- _ /\ _ => split end; first [refine (T _ _ _); vm_compute; reflexivity | refine (Fa _ _ _); vm_compute; reflexivity].
Qed.
