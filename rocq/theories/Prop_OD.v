(* C54: an off-design element whose area (and map scalars) come from the design point is solved by the design point. *)
From Coq Require Import FunctionalExtensionality Ascii Lia.
From Verif Require Import Lib_R Spec_Wire Model_Thermo Proofs_Wire Prop_Static Prop_Thermo Model_Elem1 Proofs_Elem Proofs_Elem2 Proofs_Elem3 Proofs_ElemEx Prop_Station Prop_Station2 Prop_StationEx Proofs_OD.
Open Scope string_scope. Open Scope list_scope. Open Scope R_scope.

(* a station of moving gas: positive speed of sound, density, area, Mach number *)
Definition flowing (w : state) (tot stat : string) : Prop :=
  0 < val w (at_ stat "gamma") * val w (at_ stat "R") * val w (at_ stat "T") /\ val w (at_ stat "rho") <> 0 /\ val w (at_ tot "h") <> 0 /\ / 10 ^ 16 <= val w (at_ stat "MN") /\ val w (at_ stat "area") <> 0.

Ltac av := let y := fresh in let Hy := fresh in let p := fresh in let Hp := fresh in
  intros y Hy; cbn in Hy; repeat destruct Hy as [<-|Hy]; try contradiction;
  (split; (split; [reflexivity|intros p Hp; cbn in Hp; repeat destruct Hp as [<-|Hp]; try contradiction; cbn; first [reflexivity|discriminate]])).
Ltac eachc := let x := fresh in let H := fresh in let k := fresh in intros x H k; cbn in H; repeat destruct H as [<-|H]; try contradiction; reflexivity.
Ltac conn_out Hc := let a := fresh in let b := fresh in let H := fresh in let k := fresh in intros a b H k; cbn in H; repeat destruct H as [H|H]; try contradiction; injection H as <- <-; apply Hc; insub.

(* default_des_od_conns of the element, and the Mach number under the plain name the station also has *)
Definition area_conns : list (string * string) := [("Fl_O:stat:area", "area"); ("Fl_O:stat:MN", "out_stat.MN")].
Ltac odswap tp me L nm fl pi po w Hs Hc Hf toth ht :=
  cbv beta iota delta [stat_mode]; eapply (static_swap tp me L nm fl fl pi _ po w); [okn|shw|eachc|eachc|eachc|intros ?; reflexivity|intros ?; reflexivity| |exact (Hs (tsub tp me nm static_MN fl pi po) ltac:(insub))];
  destruct Hf as (? & ? & ? & ? & ?); split; [split; assumption|]; split; [|split; assumption]; intros Hz; match goal with N : val _ (at_ _ "h") <> 0 |- _ => apply N end; etransitivity; [|exact Hz]; symmetry; apply (Hc toth ht); insub.
Theorem C54_inlet tp me w : tp_local tp -> flowing w "Fl_O:tot" "Fl_O:stat" ->
  solves (inlet tp me true true) w -> solves (inlet tp me true false) (carry area_conns w).
Proof.
  intros L Hf [Hs Hc]. split; [|conn_out Hc]. intros s H. unfold inlet in H. cbn [subs app] in H. repeat destruct H as [<-|H]; try contradiction.
  - apply frame; [av|apply Hs; insub].
  - apply frame; [av|apply Hs; insub].
  - apply frame; [av|apply Hs; insub].
  - odswap tp me L "out_stat" "Fl_O:stat" [PA "composition" "Fl_I:tot:composition"; PA "W" "Fl_I:stat:W"; PN "MN"] [PG "Fl_O:stat:"] w Hs Hc Hf "Fl_O:tot:h" "out_stat.ht".
Qed.
(* The loss coefficient s_dPqP of a duct is also carried (same name). MN_in > 0: a stream enters *)
Theorem C54_duct tp me w with_MN expMN : tp_local tp -> flowing w "Fl_O:tot" "Fl_O:stat" -> (with_MN = true -> 0 < val w "Fl_I:stat:MN") ->
  solves (duct tp me true true with_MN expMN) w -> solves (duct tp me true false with_MN expMN) (carry area_conns w).
Proof.
  intros L Hf Hm [Hs Hc]. split; [|conn_out Hc]. intros s H. unfold duct in H, Hs. cbn [subs app] in H, Hs. destruct with_MN; cbn [app] in H, Hs; repeat destruct H as [<-|H]; try contradiction.
  - apply frame; [av|apply Hs; insub].
  - specialize (Hm eq_refl). assert (D := Hs (dPqP_MN_sub true expMN) ltac:(insub) (V "s_dPqP") ltac:(inp)). intros o Ho. inlist Ho.
    change (w "s_dPqP" 0%nat / 1 = w "dPqP" 0%nat / 1 / rpow (w "Fl_I:stat:MN" 0%nat / 1) expMN) in D. change (w "dPqP" 0%nat / 1 = w "s_dPqP" 0%nat / 1 * rpow (w "Fl_I:stat:MN" 0%nat / 1) expMN).
    unfold val in Hm. rewrite rpow_pos in * by lra. rewrite D. field. unfold Rpower. pose proof (exp_pos (expMN * ln (w "Fl_I:stat:MN" 0%nat / 1))). lra.
  - apply frame; [av|apply Hs; insub].
  - apply frame; [av|apply Hs; insub].
  - apply frame; [av|apply Hs; insub].
  - odswap tp me L "out_stat" "Fl_O:stat" [PA "composition" "Fl_I:tot:composition"; PA "W" "Fl_I:stat:W"; PN "MN"] [PG "Fl_O:stat:"] w Hs Hc Hf "Fl_O:tot:h" "out_stat.ht".
  - apply frame; [av|apply Hs; insub].
  - apply frame; [av|apply Hs; insub].
  - apply frame; [av|apply Hs; insub].
  - apply frame; [av|apply Hs; insub].
  - odswap tp me L "out_stat" "Fl_O:stat" [PA "composition" "Fl_I:tot:composition"; PA "W" "Fl_I:stat:W"; PN "MN"] [PG "Fl_O:stat:"] w Hs Hc Hf "Fl_O:tot:h" "out_stat.ht".
Qed.
(* but the default connections of a Duct (duct.py:157-160) do not contain s_dPqP: an off-design duct left with the declared default 0 has no pressure loss, whatever the design loss was *)
Theorem C58_duct_defaults_refuted : exists w, solves (duct gas2 TABULAR true true true 2) w /\ val w "dPqP" = / 2 /\
  forall w', solves (duct gas2 TABULAR true false true 2) w' -> val w' "s_dPqP" = 0 -> val w' "dPqP" = 0 /\ val w' "Fl_O:tot:P" = val w' "Fl_I:tot:P".
Proof.
  exists ex_duct. split; [|split].
  - split; [|ex_conns]. intros s Hs. insplit Hs.
    + exact Logic.I.
    + intros o Ho. inlist Ho. change (2 / 1 = / 2 / 1 / rpow (/ 2 / 1) 2). rewrite rpow_pos by lra. replace (/ 2 / 1) with (/ 2) by field. replace (Rpower (/ 2) 2) with (/ 4); [field|].
      replace 2 with (INR 2) at 2 by (cbn; ring). rewrite Rpower_pow by lra. lra.
    + intros o Ho. inlist Ho. change (exPt / ufac "lbf/inch**2" = 2 * exPt / ufac "lbf/inch**2" * (1 - / 2 / 1)). field. apply ufac_n0.
    + intros o Ho. inlist Ho. change (1600 * (825 / 2) / ufac "Btu/lbm" = (1600 * (825 / 2) - 1000 / exW) / ufac "Btu/lbm" + 1000 / ufac "Btu/s" / (exW / ufac "lbm/s")).
      rewrite <- btu_lbm. pose proof exW_pos. field. repeat split; try apply ufac_n0. lra.
    + ex_sub.
    + ex_sub.
  - reflexivity.
  - intros w' H E. assert (D : val w' "dPqP" = 0).
    { assert (D := proj1 H (dPqP_MN_sub false 2) ltac:(insub) (V "dPqP") ltac:(inp)). change (w' "dPqP" 0%nat / 1 = w' "s_dPqP" 0%nat / 1 * rpow (w' "Fl_I:stat:MN" 0%nat / 1) 2) in D. unfold val in *. rewrite E in D. lra. }
    split; [exact D|]. destruct (C48_duct _ _ _ _ _ _ _ H) as (_ & _ & P & _). rewrite P, D. ring.
Qed.
Definition split_conns : list (string * string) := [("Fl_O1:stat:area", "area1"); ("Fl_O2:stat:area", "area2"); ("Fl_O1:stat:MN", "out1_stat.MN"); ("Fl_O2:stat:MN", "out2_stat.MN")].
Theorem C54_splitter tp me w : tp_local tp -> flowing w "Fl_O1:tot" "Fl_O1:stat" -> flowing w "Fl_O2:tot" "Fl_O2:stat" ->
  solves (splitter tp me true true) w -> solves (splitter tp me true false) (carry split_conns w).
Proof.
  intros L Hf1 Hf2 [Hs Hc]. split; [|conn_out Hc]. intros s H. unfold splitter in H. cbn [subs app] in H. repeat destruct H as [<-|H]; try contradiction.
  - apply frame; [av|apply Hs; insub].
  - apply frame; [av|apply Hs; insub].
  - apply frame; [av|apply Hs; insub].
  - apply frame; [av|apply Hs; insub].
  - odswap tp me L "out1_stat" "Fl_O1:stat" [PA "composition" "Fl_I:tot:composition"; PA "MN" "MN1"] [PG "Fl_O1:stat:"] w Hs Hc Hf1 "Fl_O1:tot:h" "out1_stat.ht".
  - odswap tp me L "out2_stat" "Fl_O2:stat" [PA "composition" "Fl_I:tot:composition"; PA "MN" "MN2"] [PG "Fl_O2:stat:"] w Hs Hc Hf2 "Fl_O2:tot:h" "out2_stat.ht".
Qed.
Theorem C54_combustor tp me a w : tp_local tp -> flowing w "Fl_O:tot" "Fl_O:stat" ->
  solves (combustor tp me a true true) w -> solves (combustor tp me a true false) (carry area_conns w).
Proof.
  intros L Hf [Hs Hc]. split; [|conn_out Hc]. intros s H. unfold combustor in H. cbn [subs app] in H. repeat destruct H as [<-|H]; try contradiction.
  - apply frame; [av|apply Hs; insub].
  - apply frame; [av|apply Hs; insub].
  - apply frame; [av|apply Hs; insub].
  - apply frame; [av|apply Hs; insub].
  - odswap tp me L "out_stat" "Fl_O:stat" [PN "MN"] [PG "Fl_O:stat:"] w Hs Hc Hf "Fl_O:tot:h" "out_stat.ht".
Qed.
