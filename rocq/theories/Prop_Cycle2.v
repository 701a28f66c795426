(* Claims C41 (a converged cycle exists), C59 (inlets and total enthalpy), C60 (a stream used twice). *)
From Coq Require Import FunctionalExtensionality Permutation Ascii Lia.
From Verif Require Import Lib_R Lib_Loop Spec_Wire Model_Thermo Proofs_Wire Prop_Static Prop_Thermo Model_Elem1 Model_Elem2 Proofs_Elem Proofs_Elem2 Proofs_ElemEx Proofs_ElemEx2 Prop_Station Prop_Station2 Prop_Station3 Prop_StationEx Prop_StationEx2 Model_Cycle Prop_Cycle.
Open Scope string_scope. Open Scope list_scope. Open Scope R_scope.

(* ---------- C59 ---------- *)
(* an inlet keeps the total enthalpy if the gas's enthalpy does not depend on pressure, or if the inlet has no pressure loss *)
Definition h_of_T (tp : R -> R -> (nat -> R) -> (string -> R) -> Prop) : Prop := forall T P P' c p q, tp T P c p -> tp T P' c q -> p "h" = q "h".
Theorem C59_ideal_gas tp me statics design w : h_of_T tp -> solves (inlet tp me statics design) w -> total_ok tp me w "Fl_I:tot" -> val w "Fl_O:tot:h" = val w "Fl_I:tot:h".
Proof.
  intros D S (q & Hq & Eq). apply C48_inlet in S as ((p & Hp & Ep) & C & T & _). unfold val in *.
  change (w (at_ "Fl_O:tot" "h") 0%nat = w (at_ "Fl_I:tot" "h") 0%nat). rewrite (Ep "h"), (Eq "h"); [|cbn; tauto|cbn; tauto]. f_equal.
  assert (EC : w (at_ "Fl_O:tot" "composition") = w (at_ "Fl_I:tot" "composition")) by (apply functional_extensionality; exact C).
  change (w "Fl_O:tot:T" 0%nat) with (w (at_ "Fl_O:tot" "T") 0%nat) in T. rewrite EC, T in Hp. exact (D _ _ _ _ _ _ Hp Hq).
Qed.
Theorem C59_full_recovery tp me statics design w : one_enthalpy tp -> solves (inlet tp me statics design) w -> total_ok tp me w "Fl_I:tot" -> val w "ram_recovery" = 1 ->
  val w "Fl_O:tot:h" = val w "Fl_I:tot:h".
Proof.
  intros D S I R1. apply C48_inlet in S as (O & C & T & P & _). rewrite R1, Rmult_1_r in P. exact (same_gas tp me w "Fl_O:tot" "Fl_I:tot" D O I C T P).
Qed.
(* a gas whose enthalpy depends on pressure at given temperature *)
Definition real_gas (T P : R) (c : nat -> R) (p : string -> R) : Prop := forall x, In x prop_names -> p x = Proofs_ElemEx.props T P x + (if String.eqb x "h" then P else 0).
Lemma real_gas_local : tp_local real_gas.
Proof. intros T P c p p' E H x Hx. rewrite <- E by exact Hx. apply H. exact Hx. Qed.
Definition rg_inlet : state := fun x _ => lookup 0
  [("Fl_I:tot:T", 400); ("Fl_O:tot:T", 400); ("Fl_I:tot:P", 2); ("Fl_O:tot:P", 1); ("real_flow.P", 1); ("calcs_inlet.Pt_out", 1); ("ram_recovery", / 2); ("Fl_I:stat:W", 1); ("Fl_O:stat:W", 1);
   ("Fl_I:tot:h", 640002); ("Fl_O:tot:h", 640001); ("Fl_I:tot:S", 400 ^ 5 / 2); ("Fl_O:tot:S", 400 ^ 5); ("Fl_I:tot:gamma", 5 / 4); ("Fl_O:tot:gamma", 5 / 4); ("Fl_I:tot:Cp", 1600); ("Fl_O:tot:Cp", 1600);
   ("Fl_I:tot:Cv", 1280); ("Fl_O:tot:Cv", 1280); ("Fl_I:tot:rho", 2 / (320 * 400)); ("Fl_O:tot:rho", 1 / (320 * 400)); ("Fl_I:tot:R", 320); ("Fl_O:tot:R", 320);
   ("real_flow.h", 640001); ("real_flow.S", 400 ^ 5); ("real_flow.gamma", 5 / 4); ("real_flow.Cp", 1600); ("real_flow.Cv", 1280); ("real_flow.rho", 1 / (320 * 400)); ("real_flow.R", 320)] x.
Theorem C59_enthalpy_refuted : exists tp w, one_enthalpy tp /\ solves (inlet tp TABULAR false true) w /\ total_ok tp TABULAR w "Fl_I:tot" /\ 0 < val w "ram_recovery" <= 1 /\ 0 < val w "Fl_I:stat:W" /\
  val w "Fl_O:tot:h" <> val w "Fl_I:tot:h".
Proof.
  exists real_gas, rg_inlet.
  match goal with |- _ /\ _ => split end; [intros T P c p q Hp Hq; rewrite (Hp "h"), (Hq "h") by (cbn; tauto); reflexivity|].
  match goal with |- _ /\ _ => split end.
  { split; [|ex_conns]. intros s Hs. insplit Hs.
    - exact Logic.I.
    - intros o Ho. inlist Ho; [change (1 / ufac "lbf/inch**2" = 2 / ufac "lbf/inch**2" * (/ 2 / 1)); field; apply ufac_n0|].
      change (0 / ufac "lbf" = (1 / ufac "lbm/s") * (0 / ufac "ft/s") / g_c). field. repeat split; try apply ufac_n0. unfold g_c. lra.
    - apply (mk_TP real_gas TABULAR real_gas_local "real_flow" "Fl_O:tot" "Fl_O:tot" [PA "T" "Fl_I:tot:T"; PA "composition" "Fl_I:tot:composition"] [PG "Fl_O:"] rg_inlet ltac:(okx) ltac:(shx) (fun x => rg_inlet (at_ "Fl_O:tot" x) 0%nat)); [| |each|each].
      + intros x Hx. rewrite pu. cbn in Hx. repeat destruct Hx as [<-|Hx]; try contradiction; cbn -[pow]; field.
      + apply vals_eq.
    - cbn. intros x Hx. inlist Hx. reflexivity. }
  match goal with |- _ /\ _ => split end.
  { exists (fun x => rg_inlet (at_ "Fl_I:tot" x) 0%nat). split; [|apply vals_eq]. intros x Hx. rewrite pu. cbn in Hx. repeat destruct Hx as [<-|Hx]; try contradiction; cbn -[pow]; field. }
  change (0 < / 2 <= 1 /\ 0 < 1 /\ 640001 <> 640002). lra.
Qed.

(* ---------- states of cycles ---------- *)
Fixpoint strip (p x : string) : option string :=
  match p, x with
  | EmptyString, _ => Some x
  | String a p', String b x' => if Ascii.eqb a b then strip p' x' else None
  | _, _ => None
  end.
Fixpoint join (l : list (string * state)) : state :=
  match l with [] => fun _ _ => 0 | (n, s) :: r => fun x k => match strip (n ++ ".") x with Some y => s y k | None => join r x k end end.
(* an inlet, a splitter (bypass ratio 1) and a heated duct, without static calculation *)
Definition cy_inlet : state := est [("ram_recovery", 1); ("F_ram", (exW / ufac "lbm/s") * (200 / ufac "ft/s") / g_c * ufac "lbf"); ("calcs_inlet.Pt_out", exPt); ("real_flow.P", exPt)].
Lemma cy_inlet_ok : solves (inlet gas2 TABULAR false true) cy_inlet.
Proof.
  split; [|ex_conns]. intros s Hs. insplit Hs.
  - exact Logic.I.
  - intros o Ho. inlist Ho.
    + change (exPt / ufac "lbf/inch**2" = exPt / ufac "lbf/inch**2" * (1 / 1)). field. apply ufac_n0.
    + change ((exW / ufac "lbm/s") * (200 / ufac "ft/s") / g_c * ufac "lbf" / ufac "lbf" = (exW / ufac "lbm/s") * (200 / ufac "ft/s") / g_c). field. repeat split; try apply ufac_n0. unfold g_c. lra.
  - ex_sub.
  - cbn. intros x Hx. inlist Hx. reflexivity.
Qed.
(* ---------- C60: pyCycle lets one outlet feed two inlets, and the gas is then there twice ---------- *)
Definition fan_els : list (string * ekind) := [("fs", EStart None); ("in1", EInlet false); ("in2", EInlet false)].
Definition fan_links : list link := [mkLink ("fs", "Fl_O") ("in1", "Fl_I") true true true; mkLink ("fs", "Fl_O") ("in2", "Fl_I") true true true].
Definition fan_state : state := join [("fs", ex_start); ("in1", cy_inlet); ("in2", cy_inlet)].
Ltac link_tac := let a := fresh in let b := fresh in let H := fresh in let k := fresh in
  intros a b H k; cbn in H; repeat destruct H as [H|H]; try contradiction; injection H as <- <-.
Theorem C60_fan_out_refuted : exists els links w,
  NoDup (map fst els) /\ (forall n k, In (n, k) els -> options_ok k) /\ (forall l, In l links -> In (l_src l) (all_ports e_out els) /\ In (l_tgt l) (all_ports e_in els)) /\ NoDup (map l_tgt links) /\
  (forall l, In l links -> l_w l = true) /\ running gas2 TABULAR true els links w /\ (forall nk, In nk els -> regular w nk) /\
  lsum (mass_flow w) (open_in els links) + lsum (mass_in w) els < lsum (mass_flow w) (open_out els links).
Proof.
  exists fan_els, fan_links, fan_state.
  match goal with |- _ /\ _ => split end; [repeat constructor; cbn; intuition discriminate|].
  match goal with |- _ /\ _ => split end; [intros n k H; cbn in H; repeat destruct H as [H|H]; try contradiction; injection H as <- <-; exact Logic.I|].
  match goal with |- _ /\ _ => split end; [intros l H; cbn in H; repeat destruct H as [<-|H]; try contradiction; cbn; auto|].
  match goal with |- _ /\ _ => split end; [repeat constructor; cbn; intuition discriminate|].
  match goal with |- _ /\ _ => split end; [intros l H; cbn in H; repeat destruct H as [<-|H]; try contradiction; reflexivity|].
  match goal with |- _ /\ _ => split end.
  { split.
    - intros n k H. cbn in H. repeat destruct H as [H|H]; try contradiction; injection H as <- <-; [exact C48_flow_start_ex|exact cy_inlet_ok|exact cy_inlet_ok].
    - intros l H. cbn in H. destruct H as [<-|[<-|[]]]; link_tac; reflexivity. }
  match goal with |- _ /\ _ => split end; [intros nk H; cbn in H; repeat destruct H as [<-|H]; try contradiction; exact Logic.I|].
  change (lsum (mass_flow fan_state) [] + lsum (mass_in fan_state) fan_els < lsum (mass_flow fan_state) [("in1", "Fl_O"); ("in2", "Fl_O")]).
  unfold lsum. cbn [fold_right map fan_els]. change (0 + (exW + (0 + (0 + 0))) < exW + (exW + 0)). pose proof exW_pos. lra.
Qed.

(* ---------- a converged cycle: start -> inlet, compressor -> splitter -> heated duct, turbine, one shaft ---------- *)
Definition cy_split : state := est [("Fl_I:stat:W", exW); ("BPR", 1); ("split_calc.W1", exW / 2); ("split_calc.W2", exW / 2); ("split_calc_W1", exW / 2); ("split_calc_W2", exW / 2);
  ("Fl_O1:stat:W", exW / 2); ("Fl_O2:stat:W", exW / 2); ("Fl_I:tot:h", 660000); ("Fl_I:tot:S", c_Sout); ("Fl_I:stat:MN", 200 / 400)].
Lemma cy_split_ok : solves (splitter gas2 TABULAR false true) cy_split.
Proof.
  split; [|ex_conns]. intros s Hs. insplit Hs.
  - exact Logic.I.
  - intros o Ho. inlist Ho.
    + change (exW / 2 / ufac "lbm/s" = exW / ufac "lbm/s" / (1 / 1 + 1)). field. apply ufac_n0.
    + change (exW / 2 / ufac "lbm/s" = exW / ufac "lbm/s" - (exW / ufac "lbm/s" / (1 / 1 + 1))). field. apply ufac_n0.
  - ex_sub.
  - ex_sub.
  - cbn. intros x Hx. inlist Hx. reflexivity.
  - cbn. intros x Hx. inlist Hx. reflexivity.
Qed.
Definition cy_duct : state := est3 [("Fl_I:stat:W", exW / 2); ("Fl_O:stat:W", exW / 2); ("dPqP", 0); ("Q_dot", 60000 * (exW / 2)); ("q_calc.ht_out", 1600 * 450); ("real_flow.h", 1600 * 450); ("real_flow.base_thermo.h", 1600 * 450);
  ("p_loss.Pt_out", exPt); ("real_flow.P", exPt); ("Fl_I:tot:S", exS)] [("Fl_I:tot:", Prop_StationEx2.c_out); ("Fl_O:tot:", gtot 450 exPt); ("real_flow.", gtot 450 exPt)].
Lemma cy_duct_ok : solves (duct gas2 TABULAR false true false 0) cy_duct.
Proof.
  split; [|ex_conns]. intros s Hs. insplit Hs.
  - exact Logic.I.
  - intros o Ho. inlist Ho. change (exPt / ufac "lbf/inch**2" = exPt / ufac "lbf/inch**2" * (1 - 0 / 1)). field. apply ufac_n0.
  - intros o Ho. inlist Ho. change (1600 * 450 / ufac "Btu/lbm" = 1600 * (825 / 2) / ufac "Btu/lbm" + 60000 * (exW / 2) / ufac "Btu/s" / (exW / 2 / ufac "lbm/s")).
    rewrite <- btu_lbm. pose proof exW_pos. field. repeat split; try apply ufac_n0. lra.
  - gx_tot 450 exPt ltac:(reflexivity).
  - cbn. intros x Hx. inlist Hx. reflexivity.
Qed.
Definition cy_els : list (string * ekind) := [("fs", EStart None); ("inlet", EInlet false); ("comp", ECompressor cmap 1 ["b1"] true); ("split", ESplitter false); ("duct", EDuct false false 0); ("turb", ETurbine tmap (ATab ex_tadd) ["b1"] true)].
Definition cy_links : list link := [mkLink ("fs", "Fl_O") ("inlet", "Fl_I") true true true; mkLink ("comp", "Fl_O") ("split", "Fl_I") true true true; mkLink ("split", "Fl_O1") ("duct", "Fl_I") false true true].
Definition cy_state : state := join [("fs", ex_start); ("inlet", cy_inlet); ("comp", ex_comp); ("split", cy_split); ("duct", cy_duct); ("turb", ex_turb)].
Definition cy_shaft : env := fun v => match v with V "Nmech" => 1000 | V "HPX" => 10 | V "fracLoss" => / 100 | I "trq_" 0 => HP_per_RPM_to_FT_LBF * cpow / 1000 | I "trq_" 1 => HP_per_RPM_to_FT_LBF * tpow / 1000 | _ => 0 end.
Theorem C41_nonvacuous : one_enthalpy gas2 /\ network cy_els cy_links /\ (forall l, In l cy_links -> l_w l = true /\ l_tot l = true) /\ running gas2 TABULAR true cy_els cy_links cy_state /\
  (forall nk, In nk cy_els -> regular cy_state nk) /\ (forall n k, In (n, k) cy_els -> divides k -> In (n, "Fl_I") (open_in cy_els cy_links) -> port_ok gas2 TABULAR cy_state (n, "Fl_I")) /\
  Permutation (flat_map fst [(["comp"; "turb"], cy_shaft)]) (map fst (filter turbo cy_els)) /\ (forall on e, In (on, e) [(["comp"; "turb"], cy_shaft)] -> shaft_on cy_state on e /\ e (V "Nmech") <> 0) /\
  open_in cy_els cy_links = [("comp", "Fl_I"); ("turb", "Fl_I"); ("turb", "b1")] /\
  open_out cy_els cy_links = [("inlet", "Fl_O"); ("comp", "b1"); ("split", "Fl_O2"); ("duct", "Fl_O"); ("turb", "Fl_O")].
Proof.
  match goal with |- _ /\ _ => split end; [intros T P c p q Hp Hq; rewrite (Hp "h"), (Hq "h") by (cbn; tauto); reflexivity|].
  match goal with |- _ /\ _ => split end.
  { repeat match goal with |- _ /\ _ => split end; unfold network.
    match goal with |- _ /\ _ => split end; [repeat constructor; cbn; intuition discriminate|].
    match goal with |- _ /\ _ => split end.
    { intros n k H. cbn in H. repeat destruct H as [H|H]; try contradiction; injection H as <- <-; try exact Logic.I.
      - split; [exact (proj1 C48_compressor_ex)|repeat constructor; cbn; intuition discriminate].
      - destruct C48_turbine_ex as (H1 & H2 & _). split; [exact H1|]. split; [exact H2|repeat constructor; cbn; intuition discriminate]. }
    match goal with |- _ /\ _ => split end; [intros l H; cbn in H; repeat destruct H as [<-|H]; try contradiction; cbn; tauto|].
    split; repeat constructor; cbn; intuition discriminate. }
  match goal with |- _ /\ _ => split end; [intros l H; cbn in H; repeat destruct H as [<-|H]; try contradiction; auto|].
  match goal with |- _ /\ _ => split end.
  { split.
    - intros n k H. cbn in H. repeat destruct H as [H|H]; try contradiction; injection H as <- <-; [exact C48_flow_start_ex|exact cy_inlet_ok|exact (proj2 C48_compressor_ex)|exact cy_split_ok|exact cy_duct_ok|exact (proj2 (proj2 C48_turbine_ex))].
    - intros l H. cbn in H. destruct H as [<-|[<-|[<-|[]]]]; link_tac; reflexivity. }
  pose proof exW_pos.
  match goal with |- _ /\ _ => split end.
  { intros nk Hk. cbn in Hk. repeat destruct Hk as [<-|Hk]; try contradiction; try exact Logic.I.
    - change (1 <> -1). lra.
    - change (exW / 2 <> 0). lra.
    - change (exW <> 0). lra. }
  match goal with |- _ /\ _ => split end.
  { intros n k Hk Dv Ho. cbn in Hk. repeat destruct Hk as [Hk|Hk]; try contradiction; injection Hk as <- <-; try contradiction. exfalso. vm_compute in Ho. intuition discriminate. }
  match goal with |- _ /\ _ => split end; [apply Permutation_refl|].
  match goal with |- _ /\ _ => split end.
  { intros on e [E|[]]. injection E as <- <-. split.
    - intros i n Hi. assert (Nf := ufac_n0 "ft*lbf"). assert (Nr := ufac_n0 "rpm"). destruct i as [|[|i]]; [| |destruct i; discriminate Hi]; injection Hi as <-.
      + change (HP_per_RPM_to_FT_LBF * cpow / 1000 = HP_per_RPM_to_FT_LBF * cpow / 1000 * ufac "ft*lbf" / ufac "ft*lbf" /\ 1000 = 1000 * ufac "rpm" / ufac "rpm"). split; field; assumption.
      + change (HP_per_RPM_to_FT_LBF * tpow / 1000 = HP_per_RPM_to_FT_LBF * tpow / 1000 * ufac "ft*lbf" / ufac "ft*lbf" /\ 1000 = 1000 * ufac "rpm" / ufac "rpm"). split; field; assumption.
    - change (1000 <> 0). lra. }
  split; reflexivity.
Qed.
