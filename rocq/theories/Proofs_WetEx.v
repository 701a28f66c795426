(* C70: a wet propulsor, with the CEA method and humid air, converged at a design point; the hypotheses of C70_engine are met.
   The states are those of Prop_ExamplesEx with the composition of the humid air at every station. *)
From Coq Require Import FunctionalExtensionality Ascii Lia.
From Verif Require Import Lib_R Lib_Py Lib_Loop Spec_Mix Spec_Wire Model_Thermo Proofs_Wire Prop_Static Prop_Atm Prop_Thermo Model_Nozzle Prop_Elem1 Prop_Elem2 Model_ThermoAdd Prop_Mix Model_Elem1 Model_Elem2 Proofs_Elem Proofs_Elem2 Proofs_ElemEx Proofs_ElemEx2.
From Verif Require Import Prop_Station Prop_Station2 Prop_Station3 Prop_Station5 Prop_Station7 Prop_Station8 Prop_StationEx Prop_StationEx2 Model_Ports Prop_Ports Model_Cycle Prop_Cycle Prop_Cycle2 Prop_Elements Prop_Humid Prop_CycleSetup Model_Examples Data_Examples Prop_Examples Prop_Examples2 Prop_Examples3 Prop_ExamplesEx Prop_CycleSetup2.
Open Scope string_scope. Open Scope list_scope. Open Scope R_scope.

(* ---------- the two methods use the same equations in other units ---------- *)
Definition as_cea (tp : R -> R -> (nat -> R) -> (string -> R) -> Prop) : R -> R -> (nat -> R) -> (string -> R) -> Prop :=
  fun T P c p => tp T (P * ufac "bar") c (fun x => p x * ufac (prop_unit CEA x)).
Lemma thermo_cea tp m fl w : tp_local tp -> solves (thermo tp TABULAR m fl) w -> solves (thermo (as_cea tp) CEA m fl) w.
Proof.
  intros L [S C]. split; [|exact C]. intros s Hs. unfold thermo in Hs, S. cbn [subs] in Hs, S. apply in_app_or in Hs as [Hs|Hs]; [|apply S, in_or_app; right; exact Hs].
  destruct Hs as [<-|[]]. pose proof (S (base_sub tp TABULAR m) ltac:(left; reflexivity)) as H. unfold base_sub in H |- *. cbn [srel] in H |- *. unfold as_cea.
  unfold lin, lout in H |- *. cbn [sins souts sname pin pout] in H |- *.
  change (unit_of (base_ins CEA) "T") with "degK". change (unit_of (base_ins CEA) "P") with "bar". change (unit_of (base_ins CEA) "composition") with "". 
  change (unit_of (base_ins TABULAR) "T") with "degK" in H. change (unit_of (base_ins TABULAR) "P") with "Pa" in H. change (unit_of (base_ins TABULAR) "composition") with "" in H.
  replace (_ / ufac "bar" * ufac "bar") with (w (gname "base_thermo" (base_pin m) "P") 0%nat / ufac "Pa") by (change (ufac "Pa") with 1; field; apply ufac_n0).
  refine (L _ _ _ _ _ _ H). intros x Hx. change (prop_unit CEA x) with (unit_of (base_outs CEA) x). pose proof (pru x Hx) as E. unfold prop_unit in E. rewrite E. field. apply ufac_n0.
Qed.
Definition carries (g h : group) : Prop := (forall w, solves g w -> solves h w) /\ g_ins h = g_ins g /\ g_outs h = g_outs g.
Lemma thermo_carries tp m fl : tp_local tp -> carries (thermo tp TABULAR m fl) (thermo (as_cea tp) CEA m fl).
Proof. intros L. split; [intros w; apply thermo_cea; exact L|]. split; destruct m; reflexivity. Qed.
Lemma group_carries nm g h pi po w : carries g h -> srel (group_sub nm g pi po) (lin (group_sub nm g pi po) w) (lout (group_sub nm g pi po) w) ->
  srel (group_sub nm h pi po) (lin (group_sub nm h pi po) w) (lout (group_sub nm h pi po) w).
Proof. intros (A & B & C) H. unfold group_sub in *. cbn [srel] in *. unfold lin, lout in *. cbn [sins souts sname pin pout] in *. rewrite B, C. destruct H as (w' & S & I1 & I2). exists w'. split; [apply A, S|]. split; assumption. Qed.
Lemma sub_carries g h w : conns h = conns g -> Forall2 (fun s t => srel s (lin s w) (lout s w) -> srel t (lin t w) (lout t w)) (subs g) (subs h) -> solves g w -> solves h w.
Proof.
  intros E F [S C]. split; [|rewrite E; exact C]. clear C E. induction F as [|s t l l' H F IH]; intros x Hx; [destruct Hx|]. destruct Hx as [<-|Hx]; [apply H, S; left; reflexivity|]. apply IH; [|exact Hx]. intros y Hy. apply S. right. exact Hy.
Qed.
Ltac subc := apply sub_carries; [reflexivity|]; cbn [subs app map]; repeat (constructor; [first [exact (fun H => H) | apply group_carries; apply thermo_carries; exact gas2_local]|]); constructor.
Notation gasc := (as_cea gas2).
Lemma inlet_cea st d w : solves (inlet gas2 TABULAR st d) w -> solves (inlet gasc CEA st d) w.
Proof. destruct st, d; unfold inlet; subc. Qed.
Lemma nozzle_cea w : solves (nozzle gas2 TABULAR CV Cv) w -> solves (nozzle gasc CEA CV Cv) w.
Proof. unfold nozzle. subc. Qed.
Lemma fan_cea mp w : solves (compressor gas2 TABULAR mp 1 nil true true) w -> solves (compressor gasc CEA mp 1 nil true true) w.
Proof. unfold compressor. cbv beta iota delta [stat_mode]. subc. Qed.
Lemma flow_start_cea add : carries (flow_start gas2 TABULAR add) (flow_start gasc CEA add).
Proof.
  split; [|split].
  - intros w. unfold flow_start. apply sub_carries; [reflexivity|]. cbn [subs]. apply Forall2_app; [destruct add as [[a r]|]; repeat constructor; exact (fun H => H)|].
    repeat (constructor; [apply group_carries; apply thermo_carries; exact gas2_local|]). constructor.
  - destruct add as [[a r]|]; reflexivity.
  - destruct add as [[a r]|]; reflexivity.
Qed.
Lemma fc_conv_cea add : carries (fc_conv gas2 TABULAR add) (fc_conv gasc CEA add).
Proof.
  destruct (flow_start_cea add) as (A & B & C). split; [|split].
  - intros w. unfold fc_conv. apply sub_carries; [reflexivity|]. cbn [subs]. constructor; [apply group_carries, flow_start_cea|]. constructor; [exact (fun H => H)|constructor].
  - unfold fc_conv, g_ins, g_outs. cbn [subs conns flat_map]. unfold in_names, out_names, group_sub. cbn [sins souts sname pin pout]. rewrite B, C. reflexivity.
  - unfold fc_conv, g_outs. cbn [subs flat_map]. unfold out_names, group_sub. cbn [souts sname pout]. rewrite C. reflexivity.
Qed.
Lemma flight_cea add w : solves (flight_conditions gas2 TABULAR add) w -> solves (flight_conditions gasc CEA add) w.
Proof. unfold flight_conditions. apply sub_carries; [reflexivity|]. cbn [subs]. constructor; [exact (fun H => H)|]. constructor; [apply group_carries, fc_conv_cea|constructor]. Qed.

(* ---------- the stations filled with a gas of composition v ---------- *)
Section Wet.
Variable v : nat -> R.
Definition wet (s : state) : state := fun x k => if String.eqb (lastp x "") "composition" then v k else s x k.
Lemma wet_inlet_ok : solves (inlet gas2 TABULAR true true) (wet cy_inlet).
Proof.
  split; [|ex_conns]. intros s Hs. insplit Hs.
  - exact Logic.I.
  - intros o Ho. inlist Ho.
    + change (exPt / ufac "lbf/inch**2" = exPt / ufac "lbf/inch**2" * (1 / 1)). field. apply ufac_n0.
    + change ((exW / ufac "lbm/s") * (200 / ufac "ft/s") / g_c * ufac "lbf" / ufac "lbf" = (exW / ufac "lbm/s") * (200 / ufac "ft/s") / g_c). field. repeat split; try apply ufac_n0. unfold g_c. lra.
  - ex_sub.
  - ex_sub.
Qed.
Lemma wet_fan_ok : solves (compressor gas2 TABULAR cmap 1 nil true true) (wet pr_fan).
Proof.
  assert (Nl := ufac_n0 "lbm/s"). assert (Nr := ufac_n0 "rpm"). assert (Np := ufac_n0 "psi"). assert (Ni := ufac_n0 "lbf/inch**2"). assert (Nb := ufac_n0 "Btu/lbm"). assert (PW := exW_pos2). assert (PP := exPt_pos). assert (PS := exPs_pos).
  split; [|ex_conns]. intros s Hs. unfold compressor in Hs. cbn [subs app map] in Hs. repeat destruct Hs as [<-|Hs]; try contradiction; cbv beta iota delta [stat_mode].
  - exact Logic.I.
  - intros o Ho. inlist Ho.
    + change (pWc * ufac "lbm/s" / ufac "lbm/s" = pWc). field. exact Nl.
    + change (pNc * ufac "rpm" / ufac "rpm" = 1000 * ufac "rpm" / ufac "rpm" * rpow (825 / 2 / ufac "degR" / T_STDeng) (- (1 / 2))). replace (1000 * ufac "rpm" / ufac "rpm") with 1000 by (field; exact Nr). unfold pNc. field. exact Nr.
  - apply (group_make _ _ _ _ _ pr_map pr_map_ok); allx.
  - intros o Ho. inlist Ho. change (32 * exPt / ufac "lbf/inch**2" = 32 / 1 * (exPt / ufac "lbf/inch**2")). field. exact Ni.
  - gx_tot 825 (32 * exPt) ltac:(ps_tac).
  - intros o Ho. inlist Ho. change (1980000 / ufac "Btu/lbm" = (1320000 / ufac "Btu/lbm" - 1600 * (825 / 2) / ufac "Btu/lbm") / (1 / 2 / 1) + 1600 * (825 / 2) / ufac "Btu/lbm"). field. exact Nb.
  - gx_tot (2475 / 2) (32 * exPt) ltac:(ps_tac).
  - intros o Ho. inlist Ho. change (ppoly (ufac "Btu/(lbm*degR)") / 1 = 320 / ufac "Btu/(lbm*degR)" * ln (32 / 1) / (320 / ufac "Btu/(lbm*degR)" * ln (32 / 1) + pSout / ufac "Btu/(lbm*degR)" - exS / ufac "Btu/(lbm*degR)")).
    replace (32 / 1) with 32 by field. change (ppoly (ufac "Btu/(lbm*degR)") / 1 = ppoly (ufac "Btu/(lbm*degR)")). unfold Rdiv. rewrite Rinv_1. ring.
  - intros o Ho. inlist Ho.
    + change (exW / ufac "lbm/s" = exW / ufac "lbm/s"). reflexivity.
    + change (ppow * ufac "hp" / ufac "hp" = exW / ufac "lbm/s" * (1600 * (825 / 2) / ufac "Btu/lbm" - 1980000 / ufac "Btu/lbm") * BTU_s2HP).
      assert (Nh := ufac_n0 "hp"). unfold ppow. field. auto.
    + change (HP_per_RPM_to_FT_LBF * ppow / 1000 * ufac "ft*lbf" / ufac "ft*lbf" = HP_per_RPM_to_FT_LBF * (exW / ufac "lbm/s" * (1600 * (825 / 2) / ufac "Btu/lbm" - 1980000 / ufac "Btu/lbm") * BTU_s2HP) / (1000 * ufac "rpm" / ufac "rpm")).
      assert (Nf := ufac_n0 "ft*lbf"). unfold ppow. field. auto.
  - gx_stat 1200 (32 * exPs) pV pa pA exW 1980000 ltac:(first [exact pV_pos | exact pa_pos | exact pA_pos | exact pa_sq | exact pA_ok | exact pM | rewrite pV_sq; lra | lra]) ltac:(ps_tac).
Qed.
Lemma wet_nozz_ok : solves (nozzle gas2 TABULAR CV Cv) (wet pr_nozz).
Proof.
  split; [|ex_conns]. intros s Hs. unfold nozzle in Hs. cbn [subs app map] in Hs. repeat destruct Hs as [<-|Hs]; try contradiction.
  - change (1 / 1 = 1). field.
  - exact Logic.I.
  - intros o Ho. inlist Ho. change (exPs / ufac "lbf/inch**2" - exPs / ufac "lbf/inch**2" = 0). ring.
  - intros o Ho. assert (N := ufac_n0 "lbf/inch**2"). pose proof exPs_pos. pose proof exPt_pos. inlist Ho.
    + change (32 * exPt / ufac "lbf/inch**2" = 32 * exPt / ufac "lbf/inch**2" * (1 - 0 / 1)). field. exact N.
    + change (exPs / ufac "lbf/inch**2" = 32 * exPt / ufac "lbf/inch**2" * (1 - 0 / 1) / (32 * exPt / exPs / 1)). field. repeat split; try exact N; lra.
  - gx_tot (2475 / 2) (32 * exPt) ltac:(zs_tac).
  - gx_stat 1100 zPson zV zV (zA 1100 zPson zV) exW 1980000 ltac:(znum) ltac:(zs_tac).
  - gx_stat 600 exPs zVf zaf (zA 600 exPs zVf) exW 1980000 ltac:(znum) ltac:(zs_tac).
  - gx_stat 600 exPs zVf zaf (zA 600 exPs zVf) exW 1980000 ltac:(znum) ltac:(zs_tac).
  - cbn [mux_sub srel]. intros o Ho Hc. match goal with |- vget ?lo o = compute (mux CV "Fl_O") ?ee _ o => set (e := ee); set (l := lo) end.
    assert (Ch : e (V "Ps_calc") < e (B "MN" "P")).
    { change (exPs / ufac "lbf/inch**2" < zPson / ufac "lbf/inch**2"). unfold Rdiv. apply Rmult_lt_compat_r; [apply Rinv_0_lt_compat, ufac_pos|exact z_choked]. }
    assert (M : forall p, In p nozzle_props -> compute (mux CV "Fl_O") e (fun _ => 0) (stat "Throat" p) = e (B "MN" p) /\ compute (mux CV "Fl_O") e (fun _ => 0) (stat "Fl_O" p) = e (B "MN" p))
      by (intros p Hp; destruct (C37_mux_selects CV "Fl_O" p e (fun _ => 0) ltac:(discriminate) Hp) as (M1 & _); destruct (M1 eq_refl) as [M2 _]; exact (M2 Ch)).
    destruct (C37_mux_selects CV "Fl_O" "h" e (fun _ => 0) ltac:(discriminate) ltac:(inp)) as (_ & _ & _ & S1 & S2).
    assert (L : forall p, In p nozzle_props -> vget l (stat "Throat" p) = e (B "MN" p) /\ vget l (stat "Fl_O" p) = e (B "MN" p)).
    { intros p Hp. cbn in Hp. repeat destruct Hp as [<-|Hp]; try contradiction; split; reflexivity. }
    cbn [mux outs] in Ho. inflat Ho; [congruence| | | |].
    + etransitivity; [|symmetry; exact S1]. reflexivity.
    + etransitivity; [|symmetry; exact S2]. reflexivity.
    + rewrite (proj1 (M _ ltac:(eassumption))). apply L. assumption.
    + rewrite (proj2 (M _ ltac:(eassumption))). apply L. assumption.
  - intros o Ho. assert (N3 := ufac_n0 "lbf"). inlist Ho.
    + change (z_Fg * ufac "lbf" / ufac "lbf" = z_Fg). field. auto.
    + change (z_F * ufac "lbf" / ufac "lbf" = z_F). field. auto.
Qed.
End Wet.

(* ---------- humid air at the start: one part of water in a hundred parts of air ---------- *)
Lemma fold_ext {A B} (f g : A -> B -> A) l a : (forall x b, In b l -> f x b = g x b) -> fold_left f l a = fold_left g l a.
Proof. revert a. induction l as [|b l IH]; intros a H; [reflexivity|]. cbn. rewrite H by (left; reflexivity). apply IH. intros. apply H. right. assumption. Qed.
(* a reactant adder reads its declared inputs only *)
Lemma cea_ext c rs e e' old : ad_reactants c = Some rs -> e (V "Fl_I:stat:W") = e' (V "Fl_I:stat:W") -> e (V "Fl_I:tot:h") = e' (V "Fl_I:tot:h") ->
  (forall i, e (I "Fl_I:tot:composition" i) = e' (I "Fl_I:tot:composition" i)) -> (forall n, In n (ad_names c) -> e (B n "ratio") = e' (B n "ratio") /\ e (B n "h") = e' (B n "h")) ->
  cea_compute c e old = cea_compute c e' old.
Proof.
  intros Hr H1 H2 H3 H4. unfold cea_compute. assert (M : cea_mix c e old = cea_mix c e' old); [|rewrite M; reflexivity].
  unfold cea_mix. rewrite Hr. assert (S : cea_start c e old = cea_start c e' old).
  { assert (F : (fun i => e (I "Fl_I:tot:composition" i)) = (fun i => e' (I "Fl_I:tot:composition" i))) by (apply functional_extensionality; exact H3). unfold cea_start. rewrite H1, H2, F. reflexivity. }
  rewrite S. apply fold_ext. intros x [n r] Hn. apply in_combine_l in Hn. destruct (H4 n Hn) as [A B]. unfold cea_react_step. cbn [fst snd]. rewrite H1, A, B. reflexivity.
Qed.
Section Humid.
Variables (inf mixed : list string) (wts : list R) (rs : list (string * list R)) (fl : dict (list string * list R)) (air : nat -> R).
Definition hc : cea_adder := mkAdder inf mixed wts ("mix" :: nil) (Some rs) fl.
Definition he : env := fun x => match x with V "Fl_I:stat:W" => exW / ufac "lbm/s" | I "Fl_I:tot:composition" i => air i | B "mix" "ratio" => / 100 | _ => 0 end.
Definition hout : env := cea_compute hc he (fun _ => 0).
Definition hv (k : nat) : R := hout (I "composition_out" k).
Definition hs : state := fun x k =>
  if String.eqb x "thermo_add.Fl_I:tot:composition" then air k else
  match find (fun p => String.eqb (fst p) x) [("thermo_add.Fl_I:tot:h", 0); ("thermo_add.mix:h", 0); ("WAR", / 100); ("thermo_add.mass_avg_h", hout (V "mass_avg_h") * ufac "Btu/lbm"); ("thermo_add.Wout", hout (V "Wout") * ufac "lbm/s"); ("thermo_add.mix:W", hout (B "mix" "W") * ufac "lbm/s")] with
  | Some p => snd p | None => wet hv (est []) x k end.
Lemma hs_ok : solves (flow_start gas2 TABULAR (Some (ACea hc, "WAR"))) hs.
Proof.
  assert (Nl := ufac_n0 "lbm/s"). assert (Nb := ufac_n0 "Btu/lbm"). split; [|ex_conns]. intros s Hs. unfold flow_start in Hs. cbn [subs app] in Hs. repeat destruct Hs as [<-|Hs]; try contradiction; [|ex_sub|ex_sub].
  unfold add_sub. cbn [srel]. intros o Ho. change (add_compute (ACea hc)) with (cea_compute hc). match goal with |- _ = cea_compute hc ?ee _ o => rewrite (cea_ext hc rs ee he) end; try reflexivity.
  - fold hout. unfold add_vars in Ho. apply in_app_or in Ho as [[<-|[<-|[]]]|Ho].
    + change (hout (V "mass_avg_h") * ufac "Btu/lbm" / ufac "Btu/lbm" = hout (V "mass_avg_h")). field. exact Nb.
    + change (hout (V "Wout") * ufac "lbm/s" / ufac "lbm/s" = hout (V "Wout")). field. exact Nl.
    + apply in_app_or in Ho as [Ho|Ho].
      * apply in_map_iff in Ho as (j & <- & _). change (hout (I "composition_out" j) / 1 = hout (I "composition_out" j)). field.
      * destruct Ho as [<-|[]]. change (hout (B "mix" "W") * ufac "lbm/s" / ufac "lbm/s" = hout (B "mix" "W")). field. exact Nl.
  - change (0 / ufac "Btu/lbm" = 0). field. exact Nb.
  - intros i. change (air i / 1 = air i). field.
  - intros n [<-|[]]. split; [change (/ 100 / 1 = / 100); field|change (0 / ufac "Btu/lbm" = 0); field; exact Nb].
Qed.
Definition hconv : state := fun x k => if prefix "fs.thermo_add." x then hs (substring 3 (String.length x) x) k else if String.eqb x "WAR" then / 100 else wet hv ex_conv x k.
Definition hflight : state := fun x k => if prefix "ambient." x then ex_amb (substring 8 (String.length x) x) k else if orb (String.eqb x "alt") (String.eqb x "dTs") then ex_amb x k else hconv x k.
Lemma hflight_ok : solves (flight_conditions gas2 TABULAR (Some (ACea hc, "WAR"))) hflight.
Proof.
  split; [|ex_conns]. intros s Hs. unfold flight_conditions in Hs. cbn [subs] in Hs. repeat destruct Hs as [<-|Hs]; try contradiction.
  - apply (group_make _ _ _ _ _ ex_amb C48_ambient_ex); allx.
  - apply (group_make _ _ _ _ _ hconv); [|allx|allx]. split; [|ex_conns]. intros s Hs. unfold fc_conv in Hs. cbn [subs] in Hs. repeat destruct Hs as [<-|Hs]; try contradiction.
    + apply (group_make "fs" _ _ [PG "Fl_O:"] hconv hs hs_ok); allx.
    + intros b Hb. cbn in Hb. repeat destruct Hb as [<-|Hb]; try contradiction; reflexivity.
Qed.
End Humid.
