(* C54 continued: bleed-out, compressor, turbine, mixer. *)
From Coq Require Import FunctionalExtensionality Ascii Lia.
From Verif Require Import Lib_R Lib_Loop Spec_Wire Model_Thermo Proofs_Wire Prop_Static Prop_Thermo Model_Elem1 Model_Elem2 Proofs_Elem Proofs_Elem2 Proofs_Elem3 Proofs_ElemEx Prop_Station Prop_Station2 Prop_StationEx Proofs_OD Prop_OD Prop_Map.
Open Scope string_scope. Open Scope list_scope. Open Scope R_scope.

Ltac dp H := lazymatch type of H with
  | In _ (_ ++ _) => apply in_app_iff in H as [H|H]; dp H
  | In _ (_ :: _) => destruct H as [<-|H]; [|dp H]
  | In _ [] => destruct H
  | In _ (map _ _) => let b := fresh "b" in let Hb := fresh "Hb" in apply in_map_iff in H as (b & <- & Hb)
  | In _ (flat_map _ _) => let b := fresh "b" in let Hb := fresh "Hb" in apply in_flat_map in H as (b & Hb & H); dp H
  end.
(* as av, for promotions made from the bleed names bs *)
Ltac avb1 := cbn [avoids1]; first [reflexivity | discriminate | apply no_prefix; reflexivity | apply no_name; reflexivity].
Ltac avb := let y := fresh in let Hy := fresh in let p := fresh in let Hp := fresh in
  intros y Hy; cbn in Hy; repeat destruct Hy as [<-|Hy]; try contradiction;
  (split; (split; [first [reflexivity | cbn [sname tsub group_sub flow_in]; rewrite ?sapp_assoc; first [apply no_prefix; reflexivity | idtac]]|intros p Hp; cbn [pin pout flow_in bld_calcs_sub blds_pwr_sub blds_sub pwr_turb_sub add_sub tsub group_sub] in Hp; dp Hp; avb1])).
Ltac conn_outb Hc := let a := fresh in let b := fresh in let H := fresh in let k := fresh in
  intros a b H k; unfold carry; cbn [conns bleed_out compressor turbine] in H.

Theorem C54_bleed_out tp me bs w : tp_local tp -> flowing w "Fl_O:tot" "Fl_O:stat" ->
  solves (bleed_out tp me bs true true) w -> solves (bleed_out tp me bs true false) (carry area_conns w).
Proof.
  intros L Hf [Hs Hc]. split; [|conn_out Hc]. intros s H. unfold bleed_out in H, Hs. cbn [subs app] in H, Hs. destruct H as [<-|[<-|H]].
  - apply frame; [av|apply Hs; insub].
  - apply frame; [|apply Hs; insub].
    avb.
  - apply in_app_iff in H as [H|[<-|[<-|[]]]].
    + apply frame; [|apply Hs; right; right; apply in_or_app; left; exact H]. apply in_map_iff in H as (b & <- & Hb).
      avb.
    + apply frame; [av|apply Hs; right; right; apply in_or_app; right; insub].
    + assert (Hs' : forall s, In s [tsub tp me "out_stat" static_MN "Fl_O:stat" [PA "composition" "Fl_I:tot:composition"; PN "MN"] [PG "Fl_O:stat:"]] -> srel s (lin s w) (lout s w)).
      { intros s [<-|[]]. apply Hs. right. right. apply in_or_app. right. insub. }
      odswap tp me L "out_stat" "Fl_O:stat" [PA "composition" "Fl_I:tot:composition"; PN "MN"] [PG "Fl_O:stat:"] w Hs' Hc Hf "Fl_O:tot:h" "out_stat.ht".
Qed.

(* ---- compressor: the area and the four map scalars are carried (the scalars have the same names) ---- *)
Definition comp_conns : list (string * string) := area_conns ++ [("Nc", "map.scaledOutput.Nc"); ("Wc", "map.scaledOutput.Wc")].
Ltac not_tgt := let H := fresh in intros H; cbn [map snd comp_conns area_conns app In] in H; repeat destruct H as [H|H]; try contradiction; symmetry in H; revert H; apply no_name; reflexivity.
Ltac in_comp := let x := fresh in let H := fresh in let k := fresh in intros x H k;
  match type of H with In _ ?l => let l' := eval vm_compute in l in change (In x l') in H end; repeat destruct H as [<-|H]; try contradiction.
Ltac md Hi Ho x k := first [apply (Hi x k); vm_compute; tauto | apply (Ho x k); vm_compute; tauto].
Lemma c_map_od mp rs w : srel (group_sub "map" (compressor_map mp rs true) (c_map_pin true) (c_map_pout true)) (lin (group_sub "map" (compressor_map mp rs true) (c_map_pin true) (c_map_pout true)) w)
    (lout (group_sub "map" (compressor_map mp rs true) (c_map_pin true) (c_map_pout true)) w) ->
  val w "map.NcMap" <> 0 -> val w "map.PRmap" <> 1 -> val w "map.effMap" <> 0 -> val w "map.WcMap" <> 0 ->
  srel (group_sub "map" (compressor_map mp rs false) (c_map_pin false) (c_map_pout false)) (lin (group_sub "map" (compressor_map mp rs false) (c_map_pin false) (c_map_pout false)) (carry comp_conns w))
    (lout (group_sub "map" (compressor_map mp rs false) (c_map_pin false) (c_map_pout false)) (carry comp_conns w)).
Proof.
  intros H N1 N2 N3 N4. destruct (group_open _ _ _ _ _ H) as (v & Hv & Hi & Ho).
  apply (group_make "map" _ _ _ _ (carry cmap_conns v)).
  - apply C53_compressor_design_point; [exact Hv| | | |]; unfold val in *; [rewrite Hi by insub|rewrite Ho by insub|rewrite Ho by insub|rewrite Ho by insub]; assumption.
  - in_comp; match goal with |- carry _ _ ?x ?k = _ => md Hi Ho x k end.
  - in_comp; match goal with |- carry _ _ ?x ?k = _ => first [md Hi Ho x k | apply (Hi "Nc" k); vm_compute; tauto | apply (Hi "Wc" k); vm_compute; tauto] end.
Qed.

Theorem C54_compressor tp me mp rs bs w : tp_local tp -> flowing w "Fl_O:tot" "Fl_O:stat" -> val w "map.NcMap" <> 0 -> val w "map.PRmap" <> 1 -> val w "map.effMap" <> 0 -> val w "map.WcMap" <> 0 ->
  solves (compressor tp me mp rs bs true true) w -> solves (compressor tp me mp rs bs true false) (carry comp_conns w).
Proof.
  intros L Hf N1 N2 N3 N4 [Hs Hc]. split.
  - intros s H. unfold compressor in H, Hs. cbn [subs] in H, Hs. apply in_app_iff in H as [H|H].
    + assert (Hs1 := fun s Hi => Hs s (in_or_app _ _ _ (or_introl Hi))). clear Hs Hc. repeat destruct H as [<-|H]; try contradiction; try (apply frame; [av|apply Hs1; insub]).
      * apply c_map_od; [apply Hs1; insub|assumption ..].
      * apply frame; [avb|apply Hs1; insub].
    + assert (Hs1 := fun s Hi => Hs s (in_or_app _ _ _ (or_intror Hi))). clear Hs. apply in_app_iff in H as [H|[<-|[]]].
      * apply frame; [|apply Hs1; apply in_or_app; left; exact H]. apply in_map_iff in H as (b & <- & Hb). avb.
      * assert (Hs' : forall s, In s [tsub tp me "out_stat" static_MN "Fl_O:stat" [PN "MN"; PA "composition" "Fl_I:tot:composition"] [PG "Fl_O:stat:"]] -> srel s (lin s w) (lout s w)).
        { intros s [<-|[]]. apply Hs1. apply in_or_app. right. insub. }
        assert (Hh : w "out_stat.ht" 0%nat = w "Fl_O:tot:h" 0%nat) by (apply Hc; cbn [conns compressor]; apply in_or_app; right; apply in_or_app; right; insub).
        assert (Hc' : forall a b, In (a, b) [("Fl_O:tot:h", "out_stat.ht")] -> forall k, k = 0%nat -> w b k = w a k) by (intros a b [E|[]] k ->; injection E as <- <-; exact Hh).
        odswap tp me L "out_stat" "Fl_O:stat" [PN "MN"; PA "composition" "Fl_I:tot:composition"] [PG "Fl_O:stat:"] w Hs' Hc' Hf "Fl_O:tot:h" "out_stat.ht". reflexivity.
  - intros a b H k. unfold compressor in H, Hc. cbn [conns] in H, Hc. assert (Hc1 := Hc a b H k). apply in_app_iff in H as [H|H].
    + cbn in H. repeat destruct H as [H|H]; try contradiction; injection H as <- <-; exact Hc1.
    + apply in_app_iff in H as [H|H].
      * apply in_flat_map in H as (c & Hb & H). cbn [In] in H. destruct H as [H|[H|[]]]; injection H as <- <-; rewrite !carry_other by not_tgt; exact Hc1.
      * cbn in H. repeat destruct H as [H|H]; try contradiction; injection H as <- <-; exact Hc1.
Qed.

(* ---- turbine ---- *)
Definition turb_conns : list (string * string) := area_conns ++ [("Np", "map.scaledOutput.Np"); ("Wp", "map.scaledOutput.Wp")].
Ltac not_tgt2 := let H := fresh in intros H; cbn [map snd turb_conns area_conns app In] in H; repeat destruct H as [H|H]; try contradiction; first [discriminate H | symmetry in H; revert H; first [apply no_name; reflexivity | rewrite <- sapp_assoc; apply no_name; reflexivity]].
Lemma t_map_od mp w : srel (group_sub "map" (turbine_map mp true) (t_map_pin true) (t_map_pout true)) (lin (group_sub "map" (turbine_map mp true) (t_map_pin true) (t_map_pout true)) w)
    (lout (group_sub "map" (turbine_map mp true) (t_map_pin true) (t_map_pout true)) w) ->
  val w "map.NpMap" <> 0 -> val w "map.PRmap" <> 1 -> val w "map.effMap" <> 0 -> val w "map.WpMap" <> 0 ->
  srel (group_sub "map" (turbine_map mp false) (t_map_pin false) (t_map_pout false)) (lin (group_sub "map" (turbine_map mp false) (t_map_pin false) (t_map_pout false)) (carry turb_conns w))
    (lout (group_sub "map" (turbine_map mp false) (t_map_pin false) (t_map_pout false)) (carry turb_conns w)).
Proof.
  intros H N1 N2 N3 N4. destruct (group_open _ _ _ _ _ H) as (v & Hv & Hi & Ho).
  apply (group_make "map" _ _ _ _ (carry tmap_conns v)).
  - apply C53_turbine_design_point; [exact Hv| | | |]; unfold val in *; [rewrite Hi by (vm_compute; tauto)|rewrite Hi by (vm_compute; tauto)|rewrite Ho by insub|rewrite Ho by insub]; assumption.
  - in_comp; match goal with |- carry _ _ ?x ?k = _ => md Hi Ho x k end.
  - in_comp; match goal with |- carry _ _ ?x ?k = _ => first [md Hi Ho x k | apply (Hi "Np" k); vm_compute; tauto | apply (Hi "Wp" k); vm_compute; tauto] end.
Qed.
(* the bleed names are subsystem names of the turbine: different from its own subsystems' names, and without a dot *)
Theorem C54_turbine tp me mp a bs w : tp_local tp -> (forall b, In b bs -> contains "." b = false /\ b <> "map" /\ b <> "out_stat") ->
  flowing w "Fl_O:tot" "Fl_O:stat" -> val w "map.NpMap" <> 0 -> val w "map.PRmap" <> 1 -> val w "map.effMap" <> 0 -> val w "map.WpMap" <> 0 ->
  solves (turbine tp me mp a bs true true) w -> solves (turbine tp me mp a bs true false) (carry turb_conns w).
Proof.
  intros L Hbs Hf N1 N2 N3 N4 [Hs Hc]. split.
  - intros s H. unfold turbine in H, Hs. cbn [subs] in H, Hs. apply in_app_iff in H as [H|H]; [assert (Hs1 := fun s Hi => Hs s (in_or_app _ _ _ (or_introl Hi)))|assert (Hs1 := fun s Hi => Hs s (in_or_app _ _ _ (or_intror Hi)))]; clear Hs.
    { clear Hc. repeat destruct H as [<-|H]; try contradiction; try (apply frame; [av|apply Hs1; insub]). apply t_map_od; [apply Hs1; insub|assumption ..]. }
    apply in_app_iff in H as [H|H]; [assert (Hs := fun s Hi => Hs1 s (in_or_app _ _ _ (or_introl Hi)))|assert (Hs := fun s Hi => Hs1 s (in_or_app _ _ _ (or_intror Hi)))]; clear Hs1.
    { apply frame; [|apply Hs; exact H]. apply in_map_iff in H as (b & <- & Hb). destruct (Hbs b Hb) as (B1 & B2 & B3). avb;
      first [exact (no_prefix b "." "area" eq_refl) | exact (no_dotted b "out_stat" "MN" B1 eq_refl B3) | exact (no_dotted b "map" "scaledOutput.Np" B1 eq_refl B2) | exact (no_dotted b "map" "scaledOutput.Wp" B1 eq_refl B2)]. }
    apply in_app_iff in H as [H|H]; [assert (Hs1 := fun s Hi => Hs s (in_or_app _ _ _ (or_introl Hi)))|assert (Hs1 := fun s Hi => Hs s (in_or_app _ _ _ (or_intror Hi)))]; clear Hs.
    { destruct H as [<-|[<-|[]]]; (apply frame; [avb|apply Hs1; insub]). }
    apply in_app_iff in H as [H|H]; [assert (Hs := fun s Hi => Hs1 s (in_or_app _ _ _ (or_introl Hi)))|assert (Hs := fun s Hi => Hs1 s (in_or_app _ _ _ (or_intror Hi)))]; clear Hs1.
    { apply frame; [|apply Hs; exact H]. apply in_flat_map in H as (b & Hb & H). cbn [In] in H. destruct H as [<-|[<-|[]]]; avb. }
    apply in_app_iff in H as [H|H]; [assert (Hs1 := fun s Hi => Hs s (in_or_app _ _ _ (or_introl Hi)))|assert (Hs1 := fun s Hi => Hs s (in_or_app _ _ _ (or_intror Hi)))]; clear Hs.
    { destruct H as [<-|H]; [apply frame; [avb|apply Hs1; insub]|]. repeat destruct H as [<-|H]; try contradiction; (apply frame; [av|apply Hs1; insub]). }
    destruct H as [<-|[]].
    assert (Hh : w "out_stat.ht" 0%nat = w "Fl_O:tot:h" 0%nat) by (apply Hc; cbn [conns turbine]; do 3 (apply in_or_app; right); insub).
    assert (Hc' : forall a b, In (a, b) [("Fl_O:tot:h", "out_stat.ht")] -> forall k, k = 0%nat -> w b k = w a k) by (intros x b [E|[]] k ->; injection E as <- <-; exact Hh).
    odswap tp me L "out_stat" "Fl_O:stat" [PN "MN"] [PG "Fl_O:stat:"] w Hs1 Hc' Hf "Fl_O:tot:h" "out_stat.ht". reflexivity.
  - intros x b H k. unfold turbine in H, Hc. cbn [conns] in H, Hc. assert (Hc1 := Hc x b H k). apply in_app_iff in H as [H|H].
    + cbn in H. repeat destruct H as [H|H]; try contradiction; injection H as <- <-; exact Hc1.
    + apply in_app_iff in H as [H|H].
      * apply in_flat_map in H as (c & Hb & H). cbn [In] in H. destruct H as [H|[H|[H|[]]]]; injection H as <- <-; rewrite !carry_other by not_tgt2; exact Hc1.
      * cbn in H. repeat destruct H as [H|H]; try contradiction; injection H as <- <-; exact Hc1.
Qed.
