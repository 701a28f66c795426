(* C53: performance maps. The design point fixes scalars, the off-design point lies on the map scaled by them, and the design point is an off-design solution. *)
From Coq Require Import FunctionalExtensionality Ascii Lia.
From Verif Require Import Lib_R Lib_Loop Spec_Wire Model_Thermo Proofs_Wire Prop_Static Prop_Thermo Model_Turbo Model_Elem1 Model_Elem2 Proofs_Elem Proofs_Elem2 Proofs_Elem3 Proofs_ElemEx Prop_Station Proofs_OD Prop_OD.
Open Scope string_scope. Open Scope list_scope. Open Scope R_scope.

(* the value of a variable in the units the maps are tabulated in *)
Definition inu (u : string) (w : state) (x : string) : R := w x 0%nat / ufac u.

(* a point of the unscaled compressor map, and the same point of the map scaled by the four scalars *)
Definition on_cmap (mp : R -> R -> R -> string -> R -> Prop) (alpha nc rl pr eff wc : R) : Prop := mp alpha nc rl "PRmap" pr /\ mp alpha nc rl "effMap" eff /\ mp alpha nc rl "WcMap" wc.
Definition on_scaled_cmap mp (s_Nc s_PR s_eff s_Wc alpha nc rl pr eff wc : R) : Prop :=
  exists nc0 pr0 eff0 wc0, on_cmap mp alpha nc0 rl pr0 eff0 wc0 /\ nc = s_Nc * nc0 /\ pr - 1 = s_PR * (pr0 - 1) /\ eff = s_eff * eff0 /\ wc = s_Wc * wc0.

Ltac fact1 H x := let T := fresh in assert (T := H (V x) ltac:(inp)); revert T.
(* design: the scalars relate the point to the map *)
Theorem C53_compressor_design mp rs w : solves (compressor_map mp rs true) w ->
  on_cmap mp (val w "alphaMap") (inu "rpm" w "NcMap") (val w "RlineMap") (val w "PRmap") (val w "effMap") (inu "lbm/s" w "WcMap") /\
  (val w "NcMap" <> 0 -> val w "PRmap" <> 1 -> val w "effMap" <> 0 -> val w "WcMap" <> 0 ->
   on_scaled_cmap mp (val w "s_Nc") (val w "s_PR") (val w "s_eff") (val w "s_Wc") (val w "alphaMap") (inu "rpm" w "Nc") (val w "RlineMap") (val w "PR") (val w "eff") (inu "lbm/s" w "Wc")).
Proof.
  intros [Hs Hc]. assert (M := Hs (c_readmap mp "map" [PN "RlineMap"; PN "NcMap"; PN "alphaMap"] [PN "effMap"; PN "PRmap"; PN "WcMap"]) ltac:(insub)). cbn [c_readmap srel] in M.
  assert (S := Hs c_scalars_sub ltac:(insub)).
  assert (D : forall x, x / 1 = x) by (intros; field).
  assert (Mp : on_cmap mp (val w "alphaMap") (inu "rpm" w "NcMap") (val w "RlineMap") (val w "PRmap") (val w "effMap") (inu "lbm/s" w "WcMap")).
  { unfold on_cmap, val, inu. rewrite <- (D (w "alphaMap" 0%nat)), <- (D (w "RlineMap" 0%nat)), <- (D (w "PRmap" 0%nat)), <- (D (w "effMap" 0%nat)). repeat split; [apply (M "PRmap")|apply (M "effMap")|apply (M "WcMap")]; inp. }
  split; [exact Mp|]. intros N1 N2 N3 N4. assert (Nl := ufac_n0 "lbm/s"). assert (Nr := ufac_n0 "rpm").
  fact1 S "s_Nc". fact1 S "s_PR". fact1 S "s_eff". fact1 S "s_Wc". intros E1 E2 E3 E4.
  change (w "s_Wc" 0%nat / 1 = w "Wc" 0%nat / ufac "lbm/s" / (w "WcMap" 0%nat / ufac "lbm/s")) in E1. change (w "s_eff" 0%nat / 1 = w "eff" 0%nat / 1 / (w "effMap" 0%nat / 1)) in E2.
  change (w "s_PR" 0%nat / 1 = (w "PR" 0%nat / 1 - 1) / (w "PRmap" 0%nat / 1 - 1)) in E3. change (w "s_Nc" 0%nat / 1 = w "Nc" 0%nat / ufac "rpm" / (w "NcMap" 0%nat / ufac "rpm")) in E4.
  rewrite !D in *. unfold val, inu in *. exists (w "NcMap" 0%nat / ufac "rpm"), (w "PRmap" 0%nat), (w "effMap" 0%nat), (w "WcMap" 0%nat / ufac "lbm/s"). split; [exact Mp|].
  repeat split; [rewrite E4|rewrite E3|rewrite E2|rewrite E1]; field; auto. lra.
Qed.
(* off-design: whatever the scalars are, the converged point is on the scaled map *)
Theorem C53_compressor_offdesign mp rs w : solves (compressor_map mp rs false) w ->
  on_scaled_cmap mp (val w "s_Nc") (val w "s_PR") (val w "s_eff") (val w "s_Wc") (val w "alphaMap") (inu "rpm" w "Nc") (val w "RlineMap") (val w "PR") (val w "eff") (inu "lbm/s" w "Wc").
Proof.
  intros [Hs Hc]. assert (M := Hs (c_readmap mp "map" [PN "RlineMap"; PN "NcMap"; PN "alphaMap"] [PN "effMap"; PN "PRmap"; PN "WcMap"]) ltac:(insub)). cbn [c_readmap srel] in M.
  assert (S := Hs c_scaled_sub ltac:(insub)). assert (Nl := ufac_n0 "lbm/s"). assert (Nr := ufac_n0 "rpm").
  assert (D : forall x, x / 1 = x) by (intros; field).
  assert (B := Hs (bal_sub "map_bal" [mkBal "NcMap" "rpm" "rpm" "lhs:NcMap" "rhs:NcMap"; mkBal "RlineMap" "" "lbm/s" "lhs:RlineMap" "rhs:RlineMap"] [PA "lhs:NcMap" "Nc"; PA "lhs:RlineMap" "Wc"] [PN "NcMap"; PN "RlineMap"]) ltac:(insub)).
  assert (B1 := B (mkBal "NcMap" "rpm" "rpm" "lhs:NcMap" "rhs:NcMap") ltac:(inp)). assert (B2 := B (mkBal "RlineMap" "" "lbm/s" "lhs:RlineMap" "rhs:RlineMap") ltac:(inp)).
  change (w "Nc" 0%nat / ufac "rpm" = w "map_bal.rhs:NcMap" 0%nat / ufac "rpm") in B1. change (w "Wc" 0%nat / ufac "lbm/s" = w "map_bal.rhs:RlineMap" 0%nat / ufac "lbm/s") in B2.
  rewrite (Hc "scaledOutput.Nc" "map_bal.rhs:NcMap") in B1 by insub. rewrite (Hc "scaledOutput.Wc" "map_bal.rhs:RlineMap") in B2 by insub.
  fact1 S "PR". fact1 S "eff". fact1 S "Wc". fact1 S "Nc". intros E1 E2 E3 E4.
  change (w "scaledOutput.Nc" 0%nat / ufac "rpm" = w "NcMap" 0%nat / ufac "rpm" * (w "s_Nc" 0%nat / 1)) in E1. change (w "scaledOutput.Wc" 0%nat / ufac "lbm/s" = w "WcMap" 0%nat / ufac "lbm/s" * (w "s_Wc" 0%nat / 1)) in E2.
  change (w "eff" 0%nat / 1 = w "effMap" 0%nat / 1 * (w "s_eff" 0%nat / 1)) in E3. change (w "PR" 0%nat / 1 = (w "PRmap" 0%nat / 1 - 1) * (w "s_PR" 0%nat / 1) + 1) in E4.
  rewrite !D in *. unfold val, inu in *. exists (w "NcMap" 0%nat / ufac "rpm"), (w "PRmap" 0%nat), (w "effMap" 0%nat), (w "WcMap" 0%nat / ufac "lbm/s"). split.
  { unfold on_cmap. rewrite <- (D (w "alphaMap" 0%nat)), <- (D (w "RlineMap" 0%nat)), <- (D (w "PRmap" 0%nat)), <- (D (w "effMap" 0%nat)). repeat split; [apply (M "PRmap")|apply (M "effMap")|apply (M "WcMap")]; inp. }
  repeat split; [rewrite B1, E1|rewrite E4|rewrite E3|rewrite B2, E2]; field; auto.
Qed.
(* the design point solves the off-design map that is given the design scalars *)
Definition cmap_conns : list (string * string) := [("Nc", "scaledOutput.Nc"); ("Wc", "scaledOutput.Wc"); ("Nc", "map_bal.rhs:NcMap"); ("Wc", "map_bal.rhs:RlineMap")].
Theorem C53_compressor_design_point mp rs w : solves (compressor_map mp rs true) w ->
  val w "NcMap" <> 0 -> val w "PRmap" <> 1 -> val w "effMap" <> 0 -> val w "WcMap" <> 0 -> solves (compressor_map mp rs false) (carry cmap_conns w).
Proof.
  intros [Hs Hc] N1 N2 N3 N4. split; [|intros a b H k; cbn in H; do 2 (destruct H as [H|H]; [injection H as <- <-; reflexivity|]); repeat destruct H as [H|H]; try contradiction; injection H as <- <-; apply Hc; insub].
  assert (S := Hs c_scalars_sub ltac:(insub)). assert (Nl := ufac_n0 "lbm/s"). assert (Nr := ufac_n0 "rpm"). assert (D : forall x, x / 1 = x) by (intros; field).
  fact1 S "s_Nc". fact1 S "s_PR". fact1 S "s_eff". fact1 S "s_Wc". intros E1 E2 E3 E4.
  change (w "s_Wc" 0%nat / 1 = w "Wc" 0%nat / ufac "lbm/s" / (w "WcMap" 0%nat / ufac "lbm/s")) in E1. change (w "s_eff" 0%nat / 1 = w "eff" 0%nat / 1 / (w "effMap" 0%nat / 1)) in E2.
  change (w "s_PR" 0%nat / 1 = (w "PR" 0%nat / 1 - 1) / (w "PRmap" 0%nat / 1 - 1)) in E3. change (w "s_Nc" 0%nat / 1 = w "Nc" 0%nat / ufac "rpm" / (w "NcMap" 0%nat / ufac "rpm")) in E4.
  intros s H. unfold compressor_map in H. cbn [subs app] in H. repeat destruct H as [<-|H]; try contradiction; try (apply frame; [av|apply Hs; insub]).
  - intros o Ho. inlist Ho; unfold val in *.
    + change (w "PR" 0%nat / 1 = (w "PRmap" 0%nat / 1 - 1) * (w "s_PR" 0%nat / 1) + 1). rewrite E3. field. lra.
    + change (w "eff" 0%nat / 1 = w "effMap" 0%nat / 1 * (w "s_eff" 0%nat / 1)). rewrite E2. field. exact N3.
    + change (w "Wc" 0%nat / ufac "lbm/s" = w "WcMap" 0%nat / ufac "lbm/s" * (w "s_Wc" 0%nat / 1)). rewrite E1. field. auto.
    + change (w "Nc" 0%nat / ufac "rpm" = w "NcMap" 0%nat / ufac "rpm" * (w "s_Nc" 0%nat / 1)). rewrite E4. field. auto.
  - intros b Hb. cbn in Hb. repeat destruct Hb as [<-|Hb]; try contradiction; reflexivity.
Qed.

(* ---- stall margins ---- *)
(* SMN compares the point with the stall line at the same map speed, SMW with the stall line at the same map flow, both on the unscaled map *)
Theorem C53_stall_margins mp rs design w : solves (compressor_map mp rs design) w ->
  exists prN wcN nW prW wcW, (mp (val w "alphaMap") (inu "rpm" w "NcMap") rs "PRmap" prN /\ mp (val w "alphaMap") (inu "rpm" w "NcMap") rs "WcMap" wcN) /\
    (mp (val w "alphaMap") nW rs "PRmap" prW /\ mp (val w "alphaMap") nW rs "WcMap" wcW /\ wcW = inu "lbm/s" w "WcMap") /\
    val w "SMN" = (inu "lbm/s" w "WcMap" / wcN / (val w "PRmap" / prN) - 1) * 100 /\ val w "SMW" = (prW - val w "PRmap") / val w "PRmap" * 100.
Proof.
  intros [Hs Hc]. assert (D : forall x, x / 1 = x) by (intros; field).
  assert (Hs1 : forall s, In s [indep "stall_R" "RlineStall" rs; c_readmap mp "SMN_map" [PN "NcMap"; PN "alphaMap"] []; c_readmap mp "SMW_map" [PN "alphaMap"] [];
      bal_sub "SMW_bal" [mkBal "NcMap" "rpm" "lbm/s" "lhs:NcMap" "rhs:NcMap"] [] []; stall_sub] -> srel s (lin s w) (lout s w)) by (intros s H; apply Hs; unfold compressor_map; cbn [subs]; destruct design; cbn [app]; cbn in H |- *; tauto).
  assert (Hc1 : forall a b, In (a, b) [("stall_R.RlineStall", "SMN_map.RlineMap"); ("stall_R.RlineStall", "SMW_map.RlineMap"); ("SMW_bal.NcMap", "SMW_map.NcMap"); ("WcMap", "SMW_bal.lhs:NcMap");
      ("SMW_map.WcMap", "SMW_bal.rhs:NcMap"); ("SMN_map.PRmap", "stall_margins.PR_SMN"); ("SMW_map.PRmap", "stall_margins.PR_SMW"); ("SMN_map.WcMap", "stall_margins.Wc_SMN")] -> forall k, w b k = w a k)
    by (intros a b H; apply Hc; unfold compressor_map; cbn [conns]; destruct design; cbn [app]; cbn in H |- *; tauto).
  assert (R := Hs1 (indep "stall_R" "RlineStall" rs) ltac:(insub)). change (w "stall_R.RlineStall" 0%nat / 1 = rs) in R. rewrite D in R.
  assert (MN := Hs1 (c_readmap mp "SMN_map" [PN "NcMap"; PN "alphaMap"] []) ltac:(insub)). assert (MW := Hs1 (c_readmap mp "SMW_map" [PN "alphaMap"] []) ltac:(insub)). cbn [c_readmap srel] in MN, MW.
  assert (B := Hs1 (bal_sub "SMW_bal" [mkBal "NcMap" "rpm" "lbm/s" "lhs:NcMap" "rhs:NcMap"] [] []) ltac:(insub) (mkBal "NcMap" "rpm" "lbm/s" "lhs:NcMap" "rhs:NcMap") ltac:(inp)).
  change (w "SMW_bal.lhs:NcMap" 0%nat / ufac "lbm/s" = w "SMW_bal.rhs:NcMap" 0%nat / ufac "lbm/s") in B. rewrite (Hc1 "WcMap" "SMW_bal.lhs:NcMap"), (Hc1 "SMW_map.WcMap" "SMW_bal.rhs:NcMap") in B by insub.
  assert (S := Hs1 stall_sub ltac:(insub)). fact1 S "SMN". fact1 S "SMW". intros E1 E2.
  change (w "SMW" 0%nat / 1 = (w "stall_margins.PR_SMW" 0%nat / 1 - w "PRmap" 0%nat / 1) / (w "PRmap" 0%nat / 1) * 100) in E1.
  change (w "SMN" 0%nat / 1 = (w "WcMap" 0%nat / ufac "lbm/s" / (w "stall_margins.Wc_SMN" 0%nat / ufac "lbm/s") / (w "PRmap" 0%nat / 1 / (w "stall_margins.PR_SMN" 0%nat / 1)) - 1) * 100) in E2.
  rewrite (Hc1 "SMW_map.PRmap" "stall_margins.PR_SMW") in E1 by insub. rewrite (Hc1 "SMN_map.PRmap" "stall_margins.PR_SMN"), (Hc1 "SMN_map.WcMap" "stall_margins.Wc_SMN") in E2 by insub.
  assert (P1 := MN "PRmap" ltac:(inp)). assert (P2 := MN "WcMap" ltac:(inp)). assert (P3 := MW "PRmap" ltac:(inp)). assert (P4 := MW "WcMap" ltac:(inp)).
  change (mp (w "alphaMap" 0%nat / 1) (w "NcMap" 0%nat / ufac "rpm") (w "SMN_map.RlineMap" 0%nat / 1) "PRmap" (w "SMN_map.PRmap" 0%nat / 1)) in P1.
  change (mp (w "alphaMap" 0%nat / 1) (w "NcMap" 0%nat / ufac "rpm") (w "SMN_map.RlineMap" 0%nat / 1) "WcMap" (w "SMN_map.WcMap" 0%nat / ufac "lbm/s")) in P2.
  change (mp (w "alphaMap" 0%nat / 1) (w "SMW_map.NcMap" 0%nat / ufac "rpm") (w "SMW_map.RlineMap" 0%nat / 1) "PRmap" (w "SMW_map.PRmap" 0%nat / 1)) in P3.
  change (mp (w "alphaMap" 0%nat / 1) (w "SMW_map.NcMap" 0%nat / ufac "rpm") (w "SMW_map.RlineMap" 0%nat / 1) "WcMap" (w "SMW_map.WcMap" 0%nat / ufac "lbm/s")) in P4.
  rewrite (Hc1 "stall_R.RlineStall" "SMN_map.RlineMap") in P1, P2 by insub. rewrite (Hc1 "stall_R.RlineStall" "SMW_map.RlineMap") in P3, P4 by insub. rewrite !D in *. rewrite R in P1. rewrite R in P2. rewrite R in P3. rewrite R in P4.
  unfold val, inu. exists (w "SMN_map.PRmap" 0%nat), (w "SMN_map.WcMap" 0%nat / ufac "lbm/s"), (w "SMW_map.NcMap" 0%nat / ufac "rpm"), (w "SMW_map.PRmap" 0%nat), (w "SMW_map.WcMap" 0%nat / ufac "lbm/s").
  rewrite !D. repeat match goal with |- _ /\ _ => split end; try assumption. symmetry. exact B.
Qed.
(* they are not the stall margins of the machine, whose pressure ratio is scaled: 20 percent is reported for a compressor whose stall pressure ratio at this flow is 24 percent higher *)
Definition cmap2 (a n r : R) (x : string) (v : R) : Prop := v = lookup 0 [("effMap", 1 / 4); ("PRmap", 1 + 2 * n + r); ("WcMap", n + r)] x.
Definition ex_stall : state := fun x _ => lookup 0
  [("alphaMap", 0); ("NcMap", ufac "rpm"); ("RlineMap", 2); ("effMap", 1 / 4); ("PRmap", 5); ("WcMap", 3 * ufac "lbm/s"); ("Nc", ufac "rpm"); ("Wc", 3 * ufac "lbm/s"); ("PR", 32); ("eff", 1 / 2);
   ("s_Nc", 1); ("s_PR", 31 / 4); ("s_eff", 2); ("s_Wc", 1); ("stall_R.RlineStall", 1); ("SMN_map.RlineMap", 1); ("SMW_map.RlineMap", 1);
   ("SMN_map.effMap", 1 / 4); ("SMN_map.PRmap", 4); ("SMN_map.WcMap", 2 * ufac "lbm/s"); ("SMW_bal.NcMap", 2 * ufac "rpm"); ("SMW_map.NcMap", 2 * ufac "rpm");
   ("SMW_map.effMap", 1 / 4); ("SMW_map.PRmap", 6); ("SMW_map.WcMap", 3 * ufac "lbm/s"); ("SMW_bal.lhs:NcMap", 3 * ufac "lbm/s"); ("SMW_bal.rhs:NcMap", 3 * ufac "lbm/s");
   ("stall_margins.PR_SMN", 4); ("stall_margins.PR_SMW", 6); ("stall_margins.Wc_SMN", 2 * ufac "lbm/s"); ("SMN", 20); ("SMW", 20)] x.
Lemma ex_stall_solves : solves (compressor_map cmap2 1 true) ex_stall.
Proof.
  assert (Nl := ufac_n0 "lbm/s"). assert (Nr := ufac_n0 "rpm").
  split; [|ex_conns]. intros s Hs. unfold compressor_map in Hs. cbn [subs app map] in Hs. repeat destruct Hs as [<-|Hs]; try contradiction.
  - intros x Hx. inlist Hx; unfold cmap2.
    + change (1 / 4 / 1 = 1 / 4). field.
    + change (5 / 1 = 1 + 2 * (ufac "rpm" / ufac "rpm") + 2 / 1). field. exact Nr.
    + change (3 * ufac "lbm/s" / ufac "lbm/s" = ufac "rpm" / ufac "rpm" + 2 / 1). field. auto.
  - intros o Ho. inlist Ho.
    + change (1 / 1 = ufac "rpm" / ufac "rpm" / (ufac "rpm" / ufac "rpm")). field. exact Nr.
    + change (31 / 4 / 1 = (32 / 1 - 1) / (5 / 1 - 1)). field.
    + change (2 / 1 = 1 / 2 / 1 / (1 / 4 / 1)). field.
    + change (1 / 1 = 3 * ufac "lbm/s" / ufac "lbm/s" / (3 * ufac "lbm/s" / ufac "lbm/s")). field. exact Nl.
  - change (1 / 1 = 1). field.
  - intros x Hx. inlist Hx; unfold cmap2.
    + change (1 / 4 / 1 = 1 / 4). field.
    + change (4 / 1 = 1 + 2 * (ufac "rpm" / ufac "rpm") + 1 / 1). field. exact Nr.
    + change (2 * ufac "lbm/s" / ufac "lbm/s" = ufac "rpm" / ufac "rpm" + 1 / 1). field. auto.
  - intros x Hx. inlist Hx; unfold cmap2.
    + change (1 / 4 / 1 = 1 / 4). field.
    + change (6 / 1 = 1 + 2 * (2 * ufac "rpm" / ufac "rpm") + 1 / 1). field. exact Nr.
    + change (3 * ufac "lbm/s" / ufac "lbm/s" = 2 * ufac "rpm" / ufac "rpm" + 1 / 1). field. auto.
  - intros b Hb. cbn in Hb. repeat destruct Hb as [<-|Hb]; try contradiction; reflexivity.
  - intros o Ho. inlist Ho.
    + change (20 / 1 = (3 * ufac "lbm/s" / ufac "lbm/s" / (2 * ufac "lbm/s" / ufac "lbm/s") / (5 / 1 / (4 / 1)) - 1) * 100). field. exact Nl.
    + change (20 / 1 = (6 / 1 - 5 / 1) / (5 / 1) * 100). field.
Qed.
Theorem C57_stall_of_machine_refuted : exists mp rs w, solves (compressor_map mp rs true) w /\ val w "NcMap" <> 0 /\ val w "PRmap" <> 1 /\ val w "effMap" <> 0 /\ val w "WcMap" <> 0 /\
  forall nc pr eff wc, on_scaled_cmap mp (val w "s_Nc") (val w "s_PR") (val w "s_eff") (val w "s_Wc") (val w "alphaMap") nc rs pr eff wc -> wc = inu "lbm/s" w "Wc" ->
    val w "SMW" <> (pr - val w "PR") / val w "PR" * 100.
Proof.
  exists cmap2, 1, ex_stall. assert (Nl := ufac_n0 "lbm/s"). assert (Nr := ufac_n0 "rpm"). split; [exact ex_stall_solves|].
  change (ufac "rpm" <> 0 /\ 5 <> 1 /\ 1 / 4 <> 0 /\ 3 * ufac "lbm/s" <> 0 /\ forall nc pr eff wc, on_scaled_cmap cmap2 1 (31 / 4) 2 1 0 nc 1 pr eff wc -> wc = 3 * ufac "lbm/s" / ufac "lbm/s" -> 20 <> (pr - 32) / 32 * 100).
  repeat match goal with |- _ /\ _ => split end; try lra.
  intros nc pr eff wc (nc0 & pr0 & eff0 & wc0 & (P1 & P2 & P3) & _ & E2 & _ & E4) Ew. unfold cmap2 in *.
  change (pr0 = 1 + 2 * nc0 + 1) in P1. change (wc0 = nc0 + 1) in P3. replace (3 * ufac "lbm/s" / ufac "lbm/s") with 3 in Ew by (field; exact Nl). lra.
Qed.

(* the machine's pressure ratio and flow are the scaled map values, in design (the scalars are computed so) and off design (the balances converge so) *)
Lemma scaled_point mp rs design w : solves (compressor_map mp rs design) w ->
  (design = true -> val w "NcMap" <> 0 /\ val w "PRmap" <> 1 /\ val w "effMap" <> 0 /\ val w "WcMap" <> 0) ->
  val w "PR" - 1 = val w "s_PR" * (val w "PRmap" - 1) /\ inu "lbm/s" w "Wc" = val w "s_Wc" * inu "lbm/s" w "WcMap".
Proof.
  assert (Nl := ufac_n0 "lbm/s"). assert (D : forall x, x / 1 = x) by (intros; field).
  destruct design; intros [Hs Hc] Hd.
  - destruct (Hd eq_refl) as (N1 & N2 & N3 & N4). assert (S := Hs c_scalars_sub ltac:(insub)).
    fact1 S "s_PR". fact1 S "s_Wc". intros E1 E3.
    change (w "s_Wc" 0%nat / 1 = w "Wc" 0%nat / ufac "lbm/s" / (w "WcMap" 0%nat / ufac "lbm/s")) in E1.
    change (w "s_PR" 0%nat / 1 = (w "PR" 0%nat / 1 - 1) / (w "PRmap" 0%nat / 1 - 1)) in E3.
    rewrite !D in *. unfold val, inu in *. split; [rewrite E3|rewrite E1]; field; auto. lra.
  - clear Hd. assert (S := Hs c_scaled_sub ltac:(insub)).
    assert (B := Hs (bal_sub "map_bal" [mkBal "NcMap" "rpm" "rpm" "lhs:NcMap" "rhs:NcMap"; mkBal "RlineMap" "" "lbm/s" "lhs:RlineMap" "rhs:RlineMap"] [PA "lhs:NcMap" "Nc"; PA "lhs:RlineMap" "Wc"] [PN "NcMap"; PN "RlineMap"]) ltac:(insub)).
    assert (B2 := B (mkBal "RlineMap" "" "lbm/s" "lhs:RlineMap" "rhs:RlineMap") ltac:(inp)).
    change (w "Wc" 0%nat / ufac "lbm/s" = w "map_bal.rhs:RlineMap" 0%nat / ufac "lbm/s") in B2. rewrite (Hc "scaledOutput.Wc" "map_bal.rhs:RlineMap") in B2 by insub.
    fact1 S "PR". fact1 S "Wc". intros E2 E4.
    change (w "scaledOutput.Wc" 0%nat / ufac "lbm/s" = w "WcMap" 0%nat / ufac "lbm/s" * (w "s_Wc" 0%nat / 1)) in E2.
    change (w "PR" 0%nat / 1 = (w "PRmap" 0%nat / 1 - 1) * (w "s_PR" 0%nat / 1) + 1) in E4.
    rewrite !D in *. unfold val, inu in *. split; [rewrite E4|rewrite B2, E2]; field; auto.
Qed.
(* the two stall points of C53_stall_margins, with their efficiencies *)
Lemma stall_points mp rs design w : solves (compressor_map mp rs design) w ->
  exists prN wcN effN nW prW effW,
    mp (val w "alphaMap") (inu "rpm" w "NcMap") rs "PRmap" prN /\ mp (val w "alphaMap") (inu "rpm" w "NcMap") rs "effMap" effN /\ mp (val w "alphaMap") (inu "rpm" w "NcMap") rs "WcMap" wcN /\
    mp (val w "alphaMap") nW rs "PRmap" prW /\ mp (val w "alphaMap") nW rs "effMap" effW /\ mp (val w "alphaMap") nW rs "WcMap" (inu "lbm/s" w "WcMap") /\
    val w "SMN" = (inu "lbm/s" w "WcMap" / wcN / (val w "PRmap" / prN) - 1) * 100 /\ val w "SMW" = (prW - val w "PRmap") / val w "PRmap" * 100.
Proof.
  intros [Hs Hc]. assert (D : forall x, x / 1 = x) by (intros; field).
  assert (Hs1 : forall s, In s [indep "stall_R" "RlineStall" rs; c_readmap mp "SMN_map" [PN "NcMap"; PN "alphaMap"] []; c_readmap mp "SMW_map" [PN "alphaMap"] [];
      bal_sub "SMW_bal" [mkBal "NcMap" "rpm" "lbm/s" "lhs:NcMap" "rhs:NcMap"] [] []; stall_sub] -> srel s (lin s w) (lout s w)) by (intros s H; apply Hs; unfold compressor_map; cbn [subs]; destruct design; cbn [app]; cbn in H |- *; tauto).
  assert (Hc1 : forall a b, In (a, b) [("stall_R.RlineStall", "SMN_map.RlineMap"); ("stall_R.RlineStall", "SMW_map.RlineMap"); ("SMW_bal.NcMap", "SMW_map.NcMap"); ("WcMap", "SMW_bal.lhs:NcMap");
      ("SMW_map.WcMap", "SMW_bal.rhs:NcMap"); ("SMN_map.PRmap", "stall_margins.PR_SMN"); ("SMW_map.PRmap", "stall_margins.PR_SMW"); ("SMN_map.WcMap", "stall_margins.Wc_SMN")] -> forall k, w b k = w a k)
    by (intros a b H; apply Hc; unfold compressor_map; cbn [conns]; destruct design; cbn [app]; cbn in H |- *; tauto).
  assert (R := Hs1 (indep "stall_R" "RlineStall" rs) ltac:(insub)). change (w "stall_R.RlineStall" 0%nat / 1 = rs) in R. rewrite D in R.
  assert (MN := Hs1 (c_readmap mp "SMN_map" [PN "NcMap"; PN "alphaMap"] []) ltac:(insub)). assert (MW := Hs1 (c_readmap mp "SMW_map" [PN "alphaMap"] []) ltac:(insub)). cbn [c_readmap srel] in MN, MW.
  assert (B := Hs1 (bal_sub "SMW_bal" [mkBal "NcMap" "rpm" "lbm/s" "lhs:NcMap" "rhs:NcMap"] [] []) ltac:(insub) (mkBal "NcMap" "rpm" "lbm/s" "lhs:NcMap" "rhs:NcMap") ltac:(inp)).
  change (w "SMW_bal.lhs:NcMap" 0%nat / ufac "lbm/s" = w "SMW_bal.rhs:NcMap" 0%nat / ufac "lbm/s") in B. rewrite (Hc1 "WcMap" "SMW_bal.lhs:NcMap"), (Hc1 "SMW_map.WcMap" "SMW_bal.rhs:NcMap") in B by insub.
  assert (S := Hs1 stall_sub ltac:(insub)). fact1 S "SMN". fact1 S "SMW". intros E1 E2.
  change (w "SMW" 0%nat / 1 = (w "stall_margins.PR_SMW" 0%nat / 1 - w "PRmap" 0%nat / 1) / (w "PRmap" 0%nat / 1) * 100) in E1.
  change (w "SMN" 0%nat / 1 = (w "WcMap" 0%nat / ufac "lbm/s" / (w "stall_margins.Wc_SMN" 0%nat / ufac "lbm/s") / (w "PRmap" 0%nat / 1 / (w "stall_margins.PR_SMN" 0%nat / 1)) - 1) * 100) in E2.
  rewrite (Hc1 "SMW_map.PRmap" "stall_margins.PR_SMW") in E1 by insub. rewrite (Hc1 "SMN_map.PRmap" "stall_margins.PR_SMN"), (Hc1 "SMN_map.WcMap" "stall_margins.Wc_SMN") in E2 by insub.
  assert (P1 := MN "PRmap" ltac:(inp)). assert (P2 := MN "WcMap" ltac:(inp)). assert (P5 := MN "effMap" ltac:(inp)). assert (P6 := MW "effMap" ltac:(inp)). assert (P3 := MW "PRmap" ltac:(inp)). assert (P4 := MW "WcMap" ltac:(inp)).
  change (mp (w "alphaMap" 0%nat / 1) (w "NcMap" 0%nat / ufac "rpm") (w "SMN_map.RlineMap" 0%nat / 1) "PRmap" (w "SMN_map.PRmap" 0%nat / 1)) in P1.
  change (mp (w "alphaMap" 0%nat / 1) (w "NcMap" 0%nat / ufac "rpm") (w "SMN_map.RlineMap" 0%nat / 1) "WcMap" (w "SMN_map.WcMap" 0%nat / ufac "lbm/s")) in P2.
  change (mp (w "alphaMap" 0%nat / 1) (w "SMW_map.NcMap" 0%nat / ufac "rpm") (w "SMW_map.RlineMap" 0%nat / 1) "PRmap" (w "SMW_map.PRmap" 0%nat / 1)) in P3.
  change (mp (w "alphaMap" 0%nat / 1) (w "SMW_map.NcMap" 0%nat / ufac "rpm") (w "SMW_map.RlineMap" 0%nat / 1) "WcMap" (w "SMW_map.WcMap" 0%nat / ufac "lbm/s")) in P4.
  change (mp (w "alphaMap" 0%nat / 1) (w "NcMap" 0%nat / ufac "rpm") (w "SMN_map.RlineMap" 0%nat / 1) "effMap" (w "SMN_map.effMap" 0%nat / 1)) in P5.
  change (mp (w "alphaMap" 0%nat / 1) (w "SMW_map.NcMap" 0%nat / ufac "rpm") (w "SMW_map.RlineMap" 0%nat / 1) "effMap" (w "SMW_map.effMap" 0%nat / 1)) in P6.
  rewrite (Hc1 "stall_R.RlineStall" "SMN_map.RlineMap") in P1, P2, P5 by insub. rewrite (Hc1 "stall_R.RlineStall" "SMW_map.RlineMap") in P3, P4, P6 by insub. rewrite !D in *. rewrite R in P1. rewrite R in P2. rewrite R in P3. rewrite R in P4. rewrite R in P5. rewrite R in P6. rewrite <- B in P4.
  unfold val, inu. exists (w "SMN_map.PRmap" 0%nat), (w "SMN_map.WcMap" 0%nat / ufac "lbm/s"), (w "SMN_map.effMap" 0%nat), (w "SMW_map.NcMap" 0%nat / ufac "rpm"), (w "SMW_map.PRmap" 0%nat), (w "SMW_map.effMap" 0%nat).
  rewrite ?D. repeat match goal with |- _ /\ _ => split end; assumption.
Qed.

(* ... and exactly how far off they are. At every converged point, design or off-design, there is a point of the machine's own (scaled) stall line at the machine's corrected flow; the margin of the machine there is the
   reported one times s_PR PRmap / PR, so the sign is right, and the two agree only for an unscaled pressure ratio or at zero margin. *)
Theorem C57_flow_margin mp rs design w : solves (compressor_map mp rs design) w ->
  (design = true -> val w "NcMap" <> 0 /\ val w "PRmap" <> 1 /\ val w "effMap" <> 0 /\ val w "WcMap" <> 0) -> val w "PR" <> 0 -> val w "PRmap" <> 0 ->
  exists nc pr eff wc, on_scaled_cmap mp (val w "s_Nc") (val w "s_PR") (val w "s_eff") (val w "s_Wc") (val w "alphaMap") nc rs pr eff wc /\ wc = inu "lbm/s" w "Wc" /\
    (pr - val w "PR") / val w "PR" * 100 = val w "SMW" * (val w "s_PR" * val w "PRmap" / val w "PR") /\
    (val w "SMW" = (pr - val w "PR") / val w "PR" * 100 <-> val w "s_PR" = 1 \/ val w "SMW" = 0).
Proof.
  intros Hw Hd NP NM. destruct (scaled_point mp rs design w Hw Hd) as [EPR EWc].
  destruct (stall_points mp rs design w Hw) as (prN & wcN & effN & nW & prW & effW & _ & _ & _ & P1 & P2 & P3 & _ & ESW).
  exists (val w "s_Nc" * nW), (1 + val w "s_PR" * (prW - 1)), (val w "s_eff" * effW), (inu "lbm/s" w "Wc"). split.
  { exists nW, prW, effW, (inu "lbm/s" w "WcMap"). split; [split; [exact P1|split; [exact P2|exact P3]]|]. split; [reflexivity|]. split; [ring|]. split; [reflexivity|exact EWc]. }
  split; [reflexivity|].
  assert (E : (1 + val w "s_PR" * (prW - 1) - val w "PR") / val w "PR" * 100 = val w "SMW" * (val w "s_PR" * val w "PRmap" / val w "PR")).
  { rewrite ESW. replace (1 + val w "s_PR" * (prW - 1) - val w "PR") with (val w "s_PR" * (prW - val w "PRmap")) by lra. field. auto. }
  split; [exact E|]. rewrite E. split.
  - intros H. assert (K : val w "SMW" * (1 - val w "s_PR") = 0).
    { assert (K1 : val w "SMW" * val w "PR" = val w "SMW" * (val w "s_PR" * val w "PRmap")) by (rewrite H at 1; field; exact NP). replace (val w "PR") with (1 + val w "s_PR" * (val w "PRmap" - 1)) in K1 by lra. nra. }
    apply Rmult_integral in K as [K|K]; [right; exact K|left; lra].
  - intros [H|H]; [|rewrite H; ring]. rewrite H in EPR |- *. replace (val w "PR") with (val w "PRmap") by lra. field. exact NM.
Qed.
Theorem C57_speed_margin mp rs design w : solves (compressor_map mp rs design) w ->
  (design = true -> val w "NcMap" <> 0 /\ val w "PRmap" <> 1 /\ val w "effMap" <> 0 /\ val w "WcMap" <> 0) -> val w "PR" <> 0 -> val w "PRmap" <> 0 -> val w "WcMap" <> 0 -> val w "s_Wc" <> 0 ->
  exists prN wcN prM wcM eff, on_scaled_cmap mp (val w "s_Nc") (val w "s_PR") (val w "s_eff") (val w "s_Wc") (val w "alphaMap") (val w "s_Nc" * inu "rpm" w "NcMap") rs prM eff wcM /\
    prM - 1 = val w "s_PR" * (prN - 1) /\ wcM = val w "s_Wc" * wcN /\
    (prN <> 0 -> wcN <> 0 -> prM <> 0 ->
     (val w "SMN" = (inu "lbm/s" w "Wc" / wcM / (val w "PR" / prM) - 1) * 100 <-> val w "s_PR" = 1 \/ prN = val w "PRmap")).
Proof.
  intros Hw Hd NP NM NW NS. destruct (scaled_point mp rs design w Hw Hd) as [EPR EWc].
  destruct (stall_points mp rs design w Hw) as (prN & wcN & effN & nW & prW & effW & P1 & P2 & P3 & _ & _ & _ & ESN & _).
  exists prN, wcN, (1 + val w "s_PR" * (prN - 1)), (val w "s_Wc" * wcN), (val w "s_eff" * effN). split.
  { exists (inu "rpm" w "NcMap"), prN, effN, wcN. split; [split; [exact P1|split; [exact P2|exact P3]]|]. split; [reflexivity|]. split; [ring|]. split; reflexivity. }
  split; [ring|]. split; [reflexivity|]. intros Np Nw Nm. set (m := 1 + val w "s_PR" * (prN - 1)) in *. rewrite ESN, EWc. assert (Nl := ufac_n0 "lbm/s").
  assert (NW1 : inu "lbm/s" w "WcMap" <> 0). { unfold inu, val in *. intros K. apply NW. replace (w "WcMap" 0%nat) with (w "WcMap" 0%nat / ufac "lbm/s" * ufac "lbm/s") by (field; exact Nl). rewrite K. ring. }
  set (q := inu "lbm/s" w "WcMap") in *.
  replace (val w "s_Wc" * q / (val w "s_Wc" * wcN) / (val w "PR" / m)) with (q / wcN / (val w "PR" / m)) by (field; repeat split; assumption).
  split.
  - intros H. assert (K : prN * val w "PR" = m * val w "PRmap").
    { assert (K : q / wcN / (val w "PRmap" / prN) = q / wcN / (val w "PR" / m)) by lra. apply (f_equal (fun z => z * (wcN * val w "PRmap" * val w "PR" / q))) in K.
      replace (q / wcN / (val w "PRmap" / prN) * (wcN * val w "PRmap" * val w "PR" / q)) with (prN * val w "PR") in K by (field; repeat split; assumption).
      replace (q / wcN / (val w "PR" / m) * (wcN * val w "PRmap" * val w "PR" / q)) with (m * val w "PRmap") in K by (field; repeat split; assumption). exact K. }
    unfold m in K. replace (val w "PR") with (1 + val w "s_PR" * (val w "PRmap" - 1)) in K by lra.
    assert (K2 : (prN - val w "PRmap") * (1 - val w "s_PR") = 0) by nra. apply Rmult_integral in K2 as [K2|K2]; [right|left]; lra.
  - intros H. assert (K : prN * val w "PR" = m * val w "PRmap").
    { replace (val w "PR") with (1 + val w "s_PR" * (val w "PRmap" - 1)) by lra. unfold m. destruct H as [H|H]; rewrite H; ring. }
    f_equal. f_equal. replace (q / wcN / (val w "PRmap" / prN)) with (q * (prN * val w "PR") / (wcN * val w "PRmap" * val w "PR")) by (field; repeat split; assumption).
    rewrite K. field. repeat split; assumption.
Qed.

(* ---- turbine map ---- *)
Definition on_tmap (mp : R -> R -> R -> string -> R -> Prop) (alpha np pr eff wp : R) : Prop := mp alpha np pr "effMap" eff /\ mp alpha np pr "WpMap" wp.
Definition on_scaled_tmap mp (s_Np s_PR s_eff s_Wp alpha np pr eff wp : R) : Prop :=
  exists np0 pr0 eff0 wp0, on_tmap mp alpha np0 pr0 eff0 wp0 /\ np = s_Np * np0 /\ pr - 1 = s_PR * (pr0 - 1) /\ eff = s_eff * eff0 /\ wp = s_Wp * wp0.
Ltac t_facts S := fact1 S "s_Np"; fact1 S "s_PR"; fact1 S "s_eff"; fact1 S "s_Wp".
Theorem C53_turbine_design mp w : solves (turbine_map mp true) w ->
  on_tmap mp (val w "alphaMap") (inu "rpm" w "NpMap") (val w "PRmap") (val w "effMap") (inu "lbm/s" w "WpMap") /\
  (val w "NpMap" <> 0 -> val w "PRmap" <> 1 -> val w "effMap" <> 0 -> val w "WpMap" <> 0 ->
   on_scaled_tmap mp (val w "s_Np") (val w "s_PR") (val w "s_eff") (val w "s_Wp") (val w "alphaMap") (inu "rpm" w "Np") (val w "PR") (val w "eff") (inu "lbm/s" w "Wp")).
Proof.
  intros [Hs Hc]. assert (M := Hs (t_readmap mp) ltac:(insub)). cbn [t_readmap srel] in M. assert (S := Hs t_scalars_sub ltac:(insub)). assert (D : forall x, x / 1 = x) by (intros; field).
  assert (Mp : on_tmap mp (val w "alphaMap") (inu "rpm" w "NpMap") (val w "PRmap") (val w "effMap") (inu "lbm/s" w "WpMap")).
  { unfold on_tmap, val, inu. rewrite <- (D (w "alphaMap" 0%nat)), <- (D (w "PRmap" 0%nat)), <- (D (w "effMap" 0%nat)). repeat split; [apply (M "effMap")|apply (M "WpMap")]; inp. }
  split; [exact Mp|]. intros N1 N2 N3 N4. assert (Nl := ufac_n0 "lbm/s"). assert (Nr := ufac_n0 "rpm").
  t_facts S. intros E1 E2 E3 E4.
  change (w "s_Wp" 0%nat / 1 = w "Wp" 0%nat / ufac "lbm/s" / (w "WpMap" 0%nat / ufac "lbm/s")) in E1. change (w "s_eff" 0%nat / 1 = w "eff" 0%nat / 1 / (w "effMap" 0%nat / 1)) in E2.
  change (w "s_PR" 0%nat / 1 = (w "PR" 0%nat / 1 - 1) / (w "PRmap" 0%nat / 1 - 1)) in E3. change (w "s_Np" 0%nat / 1 = w "Np" 0%nat / ufac "rpm" / (w "NpMap" 0%nat / ufac "rpm")) in E4.
  rewrite !D in *. unfold val, inu in *. exists (w "NpMap" 0%nat / ufac "rpm"), (w "PRmap" 0%nat), (w "effMap" 0%nat), (w "WpMap" 0%nat / ufac "lbm/s"). split; [exact Mp|].
  repeat split; [rewrite E4|rewrite E3|rewrite E2|rewrite E1]; field; auto. lra.
Qed.
Theorem C53_turbine_offdesign mp w : solves (turbine_map mp false) w ->
  on_scaled_tmap mp (val w "s_Np") (val w "s_PR") (val w "s_eff") (val w "s_Wp") (val w "alphaMap") (inu "rpm" w "Np") (val w "PR") (val w "eff") (inu "lbm/s" w "Wp").
Proof.
  intros [Hs Hc]. assert (M := Hs (t_readmap mp) ltac:(insub)). cbn [t_readmap srel] in M. assert (S := Hs t_scaled_sub ltac:(insub)). assert (D : forall x, x / 1 = x) by (intros; field).
  assert (Nl := ufac_n0 "lbm/s"). assert (Nr := ufac_n0 "rpm").
  assert (B := Hs (bal_sub "map_bal" [mkBal "NpMap" "rpm" "rpm" "lhs:NpMap" "rhs:NpMap"; mkBal "PRmap" "" "lbm/s" "lhs:PRmap" "rhs:PRmap"] [PA "lhs:NpMap" "Np"; PA "lhs:PRmap" "Wp"] [PN "NpMap"; PN "PRmap"]) ltac:(insub)).
  assert (B1 := B (mkBal "NpMap" "rpm" "rpm" "lhs:NpMap" "rhs:NpMap") ltac:(inp)). assert (B2 := B (mkBal "PRmap" "" "lbm/s" "lhs:PRmap" "rhs:PRmap") ltac:(inp)).
  change (w "Np" 0%nat / ufac "rpm" = w "map_bal.rhs:NpMap" 0%nat / ufac "rpm") in B1. change (w "Wp" 0%nat / ufac "lbm/s" = w "map_bal.rhs:PRmap" 0%nat / ufac "lbm/s") in B2.
  rewrite (Hc "scaledOutput.Np" "map_bal.rhs:NpMap") in B1 by insub. rewrite (Hc "scaledOutput.Wp" "map_bal.rhs:PRmap") in B2 by insub.
  fact1 S "PR". fact1 S "eff". fact1 S "Wp". fact1 S "Np". intros E1 E2 E3 E4.
  change (w "scaledOutput.Np" 0%nat / ufac "rpm" = w "NpMap" 0%nat / ufac "rpm" * (w "s_Np" 0%nat / 1)) in E1. change (w "scaledOutput.Wp" 0%nat / ufac "lbm/s" = w "WpMap" 0%nat / ufac "lbm/s" * (w "s_Wp" 0%nat / 1)) in E2.
  change (w "eff" 0%nat / 1 = w "effMap" 0%nat / 1 * (w "s_eff" 0%nat / 1)) in E3. change (w "PR" 0%nat / 1 = (w "PRmap" 0%nat / 1 - 1) * (w "s_PR" 0%nat / 1) + 1) in E4.
  rewrite !D in *. unfold val, inu in *. exists (w "NpMap" 0%nat / ufac "rpm"), (w "PRmap" 0%nat), (w "effMap" 0%nat), (w "WpMap" 0%nat / ufac "lbm/s"). split.
  { unfold on_tmap. rewrite <- (D (w "alphaMap" 0%nat)), <- (D (w "PRmap" 0%nat)), <- (D (w "effMap" 0%nat)). repeat split; [apply (M "effMap")|apply (M "WpMap")]; inp. }
  repeat split; [rewrite B1, E1|rewrite E4|rewrite E3|rewrite B2, E2]; field; auto.
Qed.
Definition tmap_conns : list (string * string) := [("Np", "scaledOutput.Np"); ("Wp", "scaledOutput.Wp"); ("Np", "map_bal.rhs:NpMap"); ("Wp", "map_bal.rhs:PRmap")].
Theorem C53_turbine_design_point mp w : solves (turbine_map mp true) w ->
  val w "NpMap" <> 0 -> val w "PRmap" <> 1 -> val w "effMap" <> 0 -> val w "WpMap" <> 0 -> solves (turbine_map mp false) (carry tmap_conns w).
Proof.
  intros [Hs Hc] N1 N2 N3 N4. split; [|intros a b H k; cbn in H; repeat destruct H as [H|H]; try contradiction; injection H as <- <-; reflexivity].
  assert (S := Hs t_scalars_sub ltac:(insub)). assert (Nl := ufac_n0 "lbm/s"). assert (Nr := ufac_n0 "rpm"). assert (D : forall x, x / 1 = x) by (intros; field).
  t_facts S. intros E1 E2 E3 E4.
  change (w "s_Wp" 0%nat / 1 = w "Wp" 0%nat / ufac "lbm/s" / (w "WpMap" 0%nat / ufac "lbm/s")) in E1. change (w "s_eff" 0%nat / 1 = w "eff" 0%nat / 1 / (w "effMap" 0%nat / 1)) in E2.
  change (w "s_PR" 0%nat / 1 = (w "PR" 0%nat / 1 - 1) / (w "PRmap" 0%nat / 1 - 1)) in E3. change (w "s_Np" 0%nat / 1 = w "Np" 0%nat / ufac "rpm" / (w "NpMap" 0%nat / ufac "rpm")) in E4.
  intros s H. unfold turbine_map in H. cbn [subs app] in H. repeat destruct H as [<-|H]; try contradiction; try (apply frame; [av|apply Hs; insub]).
  - intros o Ho. inlist Ho; unfold val in *.
    + change (w "eff" 0%nat / 1 = w "effMap" 0%nat / 1 * (w "s_eff" 0%nat / 1)). rewrite E2. field. exact N3.
    + change (w "Np" 0%nat / ufac "rpm" = w "NpMap" 0%nat / ufac "rpm" * (w "s_Np" 0%nat / 1)). rewrite E4. field. auto.
    + change (w "PR" 0%nat / 1 = (w "PRmap" 0%nat / 1 - 1) * (w "s_PR" 0%nat / 1) + 1). rewrite E3. field. lra.
    + change (w "Wp" 0%nat / ufac "lbm/s" = w "WpMap" 0%nat / ufac "lbm/s" * (w "s_Wp" 0%nat / 1)). rewrite E1. field. auto.
  - intros b Hb. cbn in Hb. repeat destruct Hb as [<-|Hb]; try contradiction; reflexivity.
Qed.
