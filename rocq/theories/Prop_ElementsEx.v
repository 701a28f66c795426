(* The hypotheses of C66 are met: start -> inlet -> combustor burning hydrogen in oxygen, with the CEA mixing component. *)
From Coq Require Import FunctionalExtensionality Ascii Lia.
From Verif Require Import Lib_R Lib_Py Lib_Loop Spec_Mix Spec_Wire Model_Thermo Proofs_Wire Prop_Static Prop_Thermo Prop_Elem1 Model_ThermoAdd Prop_Mix Model_Elem1 Model_Elem2 Proofs_Elem Proofs_Elem2 Proofs_ElemEx Prop_Station Prop_Station2 Prop_Station3 Prop_StationEx Prop_StationEx2 Model_Ports Prop_Ports Model_Cycle Prop_Cycle Prop_Cycle2 Prop_Elements Prop_Elements2.
Open Scope string_scope. Open Scope list_scope. Open Scope R_scope.

Definition ho_spec : spec_data := mkSpec [("O2", mkSpecies nil nil 32 (("O", 2) :: nil)); ("H2O", mkSpecies nil nil 18 [("H", 2); ("O", 1)])] [("O", 16); ("H", 1)] (("LH2", ("H", 1) :: nil) :: nil).
Definition oxy : dict R := ("O", 1) :: nil.
Definition gas_out : dict R := [("O", 1); ("H", 1)].
Definition ho_opts : cea_opts := mkCea ho_spec (Some oxy) (Reactants ("LH2" :: nil)) ("mix" :: nil).
Definition ho_c : cea_adder := mkAdder ("O" :: nil) ["H"; "O"] [1; 16] ("mix" :: nil) (Some (("LH2", [1 * 1 / (1 * 1 + (0 * 16 + 0)); 0 * 16 / (1 * 1 + (0 * 16 + 0))]) :: nil)) nil.
Lemma ho_setup : cea_setup ho_opts = Ok ho_c.
Proof. reflexivity. Qed.
Definition v_in : list R := / 16 :: nil.
Definition v_out : list R := [/ 51; 50 / 51 / 16].
Definition in_comp (s : state) : state := fun x k => if String.eqb (lastp x "") "composition" then nth k v_in 0 else s x k.
Definition ho_start : state := in_comp (est []).
Definition ho_inlet : state := in_comp cy_inlet.
Definition ho_burn : state := fun x k => if str_in x ["mix_fuel.composition_out"; "vitiated_flow.composition"; "Fl_O:tot:composition"] then nth k v_out 0 else
  in_comp (est [("Fl_I:FAR", / 50); ("mix_fuel.mix:h", 1600 * (825 / 2)); ("Wfuel", exW / 50); ("Wout", exW * 51 / 50); ("Fl_O:stat:W", exW * 51 / 50); ("mix_fuel.mass_avg_h", 1600 * (825 / 2)); ("dPqP", 0); ("p_loss.Pt_out", exPt)]) x k.
Lemma ho_start_ok : solves (flow_start gas2 TABULAR None) ho_start.
Proof. split; [|ex_conns]. intros s Hs. insplit Hs; ex_sub. Qed.
Lemma ho_inlet_ok : solves (inlet gas2 TABULAR false true) ho_inlet.
Proof.
  split; [|ex_conns]. intros s Hs. insplit Hs.
  - exact Logic.I.
  - intros o Ho. inlist Ho.
    + change (exPt / ufac "lbf/inch**2" = exPt / ufac "lbf/inch**2" * (1 / 1)). field. apply ufac_n0.
    + change ((exW / ufac "lbm/s") * (200 / ufac "ft/s") / g_c * ufac "lbf" / ufac "lbf" = (exW / ufac "lbm/s") * (200 / ufac "ft/s") / g_c). field. repeat split; try apply ufac_n0. unfold g_c. lra.
  - ex_sub.
  - cbn. intros x Hx. inlist Hx. reflexivity.
Qed.
(* what the mixing component computes for 2 % hydrogen *)
Lemma ho_mix e W h : e (V "Fl_I:stat:W") = W -> e (B "mix" "ratio") = / 50 -> e (I "Fl_I:tot:composition" 0) = / 16 -> e (V "Fl_I:tot:h") = h -> e (B "mix" "h") = h -> W <> 0 ->
  let out := cea_compute ho_c e (fun _ => 0) in
  out (V "mass_avg_h") = h /\ out (V "Wout") = W * 51 / 50 /\ out (I "composition_out" 0) = / 51 /\ out (I "composition_out" 1) = 50 / 51 / 16 /\ out (B "mix" "W") = W / 50.
Proof.
  intros E1 E2 E3 E4 E5 N. cbv -[Rplus Rmult Rdiv Rinv Ropp IZR]. rewrite E1, E2, E3, E4, E5. repeat split; field; repeat split; lra.
Qed.
Lemma ho_burn_ok : solves (combustor gas2 TABULAR (ACea ho_c) false true) ho_burn.
Proof.
  split; [|ex_conns]. intros s Hs. insplit Hs; try ex_sub.
  - exact Logic.I.
  - cbn [add_sub srel]. pose proof exW_pos. pose proof (ufac_pos "lbm/s"). pose proof (ufac_pos "Btu/lbm").
    set (e := vget (lin _ ho_burn)). change (add_compute (ACea ho_c)) with (cea_compute ho_c).
    destruct (ho_mix e (exW / ufac "lbm/s") (1600 * (825 / 2) / ufac "Btu/lbm")) as (M1 & M2 & M3 & M4 & M5).
    { reflexivity. }
    { change (/ 50 / 1 = / 50). field. }
    { change (/ 16 / 1 = / 16). field. }
    { reflexivity. }
    { reflexivity. }
    { intros K. apply (Rmult_eq_compat_r (ufac "lbm/s")) in K. unfold Rdiv in K. rewrite Rmult_assoc, Rinv_l in K by lra. lra. }
    clearbody e. intros o Ho. cbn in Ho. repeat destruct Ho as [<-|Ho]; try contradiction.
    + rewrite M1. reflexivity.
    + rewrite M2. change (exW * 51 / 50 / ufac "lbm/s" = exW / ufac "lbm/s" * 51 / 50). field. lra.
    + rewrite M3. change (/ 51 / 1 = / 51). field.
    + rewrite M4. change (50 / 51 / 16 / 1 = 50 / 51 / 16). field.
    + rewrite M5. change (exW / 50 / ufac "lbm/s" = exW / ufac "lbm/s" / 50). field. lra.
  - intros o Ho. inlist Ho. change (exPt / ufac "lbf/inch**2" = exPt / ufac "lbf/inch**2" * (1 - 0 / 1)). field. apply ufac_n0.
  - cbn. intros x Hx. inlist Hx. reflexivity.
Qed.
Definition ho_els : list (string * ekind) := [("fs", EStart None); ("inlet", EInlet false); ("burner", ECombustor (ACea ho_c) false)].
Definition ho_links : list link := [mkLink ("fs", "Fl_O") ("inlet", "Fl_I") true true true; mkLink ("inlet", "Fl_O") ("burner", "Fl_I") false true true].
Definition ho_state : state := join [("fs", ho_start); ("inlet", ho_inlet); ("burner", ho_burn)].
Definition ho_lab (p : port) : dict R := if String.eqb (fst p) "burner" && String.eqb (snd p) "Fl_O" then gas_out else oxy.
Definition ho_fuel (n : string) : string := "LH2".
Definition ho_rank (n : string) : nat := if String.eqb n "fs" then 0 else if String.eqb n "inlet" then 1 else 2.
Theorem C66_nonvacuous : network ho_els ho_links /\ set_up ho_spec ho_fuel ho_lab ho_els ho_links /\ data_ok ho_spec ho_fuel ho_lab ho_els /\ (forall l, In l ho_links -> l_w l = true) /\
  running gas2 TABULAR true ho_els ho_links ho_state /\ (forall nk, In nk ho_els -> regular ho_state nk) /\ downstream ho_links ho_rank /\
  (forall n k, In (n, k) ho_els -> starts k = true -> stream_mass ho_spec ho_lab ho_state (n, "Fl_O") = 1) /\ open_in ho_els ho_links = [] /\ open_out ho_els ho_links = ("burner", "Fl_O") :: nil /\
  0 < element_flow ho_spec ho_lab ho_state "H" ("burner", "Fl_O").
Proof.
  pose proof exW_pos as HW.
  assert (FA : fuel_adder (ACea ho_c)) by (exists ho_opts, "LH2"; split; [exact ho_setup|split; reflexivity]).
  match goal with |- _ /\ _ => split end.
  { unfold network. match goal with |- _ /\ _ => split end; [repeat constructor; cbn; intuition discriminate|].
    match goal with |- _ /\ _ => split end.
    { intros n k H. cbn in H. repeat destruct H as [H|H]; try contradiction; injection H as <- <-; try exact Logic.I. exact FA. }
    match goal with |- _ /\ _ => split end; [intros l H; cbn in H; repeat destruct H as [<-|H]; try contradiction; cbn; tauto|].
    split; repeat constructor; cbn; intuition discriminate. }
  match goal with |- _ /\ _ => split end.
  { split.
    - intros n k H. cbn in H. repeat destruct H as [H|H]; try contradiction; injection H as <- <-; split.
      + intros X. discriminate X.
      + intros a o X. discriminate X.
      + intros _. exists (mkElem (("Fl_I", Some oxy) :: nil) nil). eexists. split; [reflexivity|]. split; intros p [<-|[]]; reflexivity.
      + intros a o X. discriminate X.
      + intros _. exists (mkElem (("Fl_I", Some oxy) :: nil) nil). eexists. split; [reflexivity|]. split; intros p [<-|[]]; reflexivity.
      + intros a o X. injection X as <- <-. exists ho_c. split; [reflexivity|exact ho_setup].
    - intros l H. cbn in H. repeat destruct H as [<-|H]; try contradiction; reflexivity. }
  match goal with |- _ /\ _ => split end.
  { split; [|split; [|split]].
    - intros p. unfold ho_lab, dwf. destruct (_ && _); repeat constructor; cbn; intuition discriminate.
    - intros r d H. cbn in H. destruct (String.eqb r "LH2"); [|discriminate]. injection H as <-. repeat constructor; cbn; intuition discriminate.
    - intros p x Hp Hx. assert (K : In x ["O"; "H"]).
      { cbn in Hp. repeat destruct Hp as [<-|Hp]; try contradiction; cbn in Hx; cbn; intuition auto. }
      cbn in K. destruct K as [<-|[<-|[]]]; [change (16 <> 0)|change (1 <> 0)]; lra.
    - intros n a st H. change (1 * 1 + 0 <> 0). lra. }
  match goal with |- _ /\ _ => split end; [intros l H; cbn in H; repeat destruct H as [<-|H]; try contradiction; reflexivity|].
  match goal with |- _ /\ _ => split end.
  { split.
    - intros n k H. cbn in H. repeat destruct H as [H|H]; try contradiction; injection H as <- <-; [exact ho_start_ok|exact ho_inlet_ok|exact ho_burn_ok].
    - intros l H. cbn in H. destruct H as [<-|[<-|[]]]; link_tac; reflexivity. }
  match goal with |- _ /\ _ => split end.
  { intros nk Hk. cbn in Hk. repeat destruct Hk as [<-|Hk]; try contradiction; try exact Logic.I. change (exW * 51 / 50 <> 0). lra. }
  match goal with |- _ /\ _ => split end; [intros l H; cbn in H; repeat destruct H as [<-|H]; try contradiction; cbn; lia|].
  match goal with |- _ /\ _ => split end.
  { intros n k H St. cbn in H. repeat destruct H as [H|H]; try contradiction; injection H as <- <-; try discriminate St. change (/ 16 * 16 + 0 = 1). field. }
  match goal with |- _ /\ _ => split end; [reflexivity|]. match goal with |- _ /\ _ => split end; [reflexivity|].
  change (0 < exW * 51 / 50 * ((/ 51 + (0 + 0)) * 1 / (/ 51 * 1 + (50 / 51 / 16 * 16 + 0)))).
  replace (exW * 51 / 50 * ((/ 51 + (0 + 0)) * 1 / (/ 51 * 1 + (50 / 51 / 16 * 16 + 0)))) with (exW / 50) by field. lra.
Qed.
Print Assumptions C66_nonvacuous.
(* C66 for the tabular method: a start feeding an inlet, a combustor and a cooled turbine *)
Definition tc_els : list (string * ekind) := [("fs", EStart None); ("inlet", EInlet false); ("burner", ECombustor (ATab ex_adder) true); ("turb", ETurbine tmap (ATab ex_tadd) ("b1" :: nil) true)].
Definition tc_links : list link := mkLink ("fs", "Fl_O") ("inlet", "Fl_I") true true true :: nil.
Definition tc_state : state := join [("fs", ex_start); ("inlet", cy_inlet); ("burner", ex_comb); ("turb", ex_turb)].
Theorem C66_constituents_nonvacuous : network tc_els tc_links /\ (forall nk, In nk tc_els -> tab_built ("FAR" :: nil) (fun _ => "FAR") nk) /\ (forall l, In l tc_links -> l_w l = true) /\
  running gas2 TABULAR true tc_els tc_links tc_state /\ (forall nk, In nk tc_els -> regular tc_state nk) /\ (forall nk, In nk tc_els -> mixable 1 tc_state nk) /\
  0 < const_in ("FAR" :: nil) (fun _ => "FAR") 0 tc_state ("burner", ECombustor (ATab ex_adder) true).
Proof.
  pose proof exW_pos as HW. destruct C48_combustor_ex as [C1 C2]. destruct C48_turbine_ex as (T1 & T2 & T3).
  match goal with |- _ /\ _ => split end.
  { unfold network. match goal with |- _ /\ _ => split end; [repeat constructor; cbn; intuition discriminate|].
    match goal with |- _ /\ _ => split end.
    { intros n k H. cbn in H. repeat destruct H as [H|H]; try contradiction; injection H as <- <-; try exact Logic.I; [exact C1|]. split; [exact T1|]. split; [exact T2|repeat constructor; cbn; intuition discriminate]. }
    match goal with |- _ /\ _ => split end; [intros l H; cbn in H; repeat destruct H as [<-|H]; try contradiction; cbn; tauto|].
    split; repeat constructor; cbn; intuition discriminate. }
  match goal with |- _ /\ _ => split end.
  { intros nk H. cbn in H. repeat destruct H as [<-|H]; try contradiction; try exact Logic.I.
    - exists ex_adder. split; [reflexivity|]. exists (mkTab None (TReactant "FAR") ("mix" :: nil)). repeat split; try reflexivity. repeat constructor; cbn; intuition discriminate.
    - exists ex_tadd. split; [reflexivity|]. exists (mkTab None TFlow ("b1" :: nil)). repeat split; try reflexivity. repeat constructor; cbn; intuition discriminate. }
  match goal with |- _ /\ _ => split end; [intros l H; cbn in H; repeat destruct H as [<-|H]; try contradiction; reflexivity|].
  match goal with |- _ /\ _ => split end.
  { split.
    - intros n k H. cbn in H. repeat destruct H as [H|H]; try contradiction; injection H as <- <-; [exact C48_flow_start_ex|exact cy_inlet_ok|exact C2|exact T3].
    - intros l H. cbn in H. destruct H as [<-|[]]; link_tac; reflexivity. }
  match goal with |- _ /\ _ => split end.
  { intros nk Hk. cbn in Hk. repeat destruct Hk as [<-|Hk]; try contradiction; try exact Logic.I; change (exW <> 0); lra. }
  match goal with |- _ /\ _ => split end.
  { intros nk Hk. cbn in Hk. repeat destruct Hk as [<-|Hk]; try contradiction; try exact Logic.I.
    - split.
      + intros p [<-|[]]. split; [change (0 <= exW * 50 / 51); lra|]. intros j Hj. change (0 <= 0). lra.
      + change (0 < exW * 50 / 51). lra.
    - split.
      + intros p [<-|[<-|[]]]; (split; [change (0 <= exW / 2); lra|]); intros j Hj; change (0 <= 0); lra.
      + change (0 < exW / 2). lra. }
  change (0 < exW / 51). lra.
Qed.
Print Assumptions C66_constituents_nonvacuous.
