(* Claim C71: what the viewers print. *)
From Coq Require Import Lia Classical.
From Verif Require Import Lib_R Lib_Loop Spec_Wire Model_Thermo Proofs_Wire Prop_Static Prop_Thermo Model_Turbo Model_Nozzle Model_Elem1 Model_Elem2 Proofs_Elem Proofs_Elem2 Proofs_Elem3
  Prop_Station Prop_Station3 Prop_Station4 Prop_Station5 Prop_Station6 Prop_Station7 Prop_Station8 Prop_Map Model_Viewers.
Open Scope string_scope. Open Scope list_scope. Open Scope R_scope.

(* ---- reading names ---- *)
Section Read.
Variables (g : group) (leaves : list string) (inner : list (sub * group)) (ps : list string).
Hypothesis Hp : params_ok g ps.
Notation sc := (scope_of g leaves inner ps).
Lemma out_in s k : In s (subs g) -> In k (out_names s) -> In k (g_outs g).
Proof. intros H K. unfold g_outs. apply in_flat_map. exists s. auto. Qed.
Lemma find_out s k : In s (subs g) -> In k (out_names s) -> finds sc k k.
Proof.
  intros H K. apply by_promotion.
  - cbn [scope_of promoted]. apply in_flat_map. exists s. split; [exact H|]. apply in_or_app. right. exact K.
  - cbn [scope_of params]. intros P. destruct (Hp k P) as [P1 _]. apply in_g_ins in P1. apply (proj1 (proj2 P1)). apply (out_in s); assumption.
Qed.
Lemma find_in s k : In s (subs g) -> In k (in_names s) -> contains "." k = true -> finds sc k k.
Proof.
  intros H K D. apply by_promotion.
  - cbn [scope_of promoted]. apply in_flat_map. exists s. split; [exact H|]. apply in_or_app. left. exact K.
  - cbn [scope_of params]. intros P. destruct (Hp k P) as [_ P1]. congruence.
Qed.
Lemma find_path s k n : In s (subs g) -> memb (sname s) leaves = true -> In (k, n) (comp_keys s) -> finds sc k n.
Proof. intros H L K. apply by_path. cbn [scope_of components]. apply in_or_app. left. apply in_flat_map. exists s. split; [apply filter_In; auto|exact K]. Qed.
Lemma find_inner mh k n : In mh inner -> In (k, n) (inner_keys mh) -> finds sc k n.
Proof. intros H K. apply by_path. cbn [scope_of components]. apply in_or_app. right. apply in_flat_map. exists mh. auto. Qed.
Lemma keys_dotted s k n : In (k, n) (comp_keys s) -> dotted k = true.
Proof.
  unfold comp_keys. intros H. apply in_app_or in H. destruct H as [H|H]; apply in_map_iff in H; destruct H as (x & E & _); injection E as <- _; rewrite dotted_app; change ("." ++ x)%string with (String "."%char x); rewrite dotted_cons; apply orb_true_r.
Qed.
(* an input of the element: below the point, or, if it is a cycle parameter, at the top *)
Lemma via_in w s k : In s (subs g) -> In k (in_names s) -> dotted k = false -> cell_val sc w (Via k) (val w k).
Proof.
  intros H K D. destruct (classic (In k ps)) as [P|P].
  - apply read_param; [|exact P]. intros n F. inversion F as [F1 F2|m F1]; subst; [apply F2; exact P|].
    cbn [scope_of components] in F1. apply in_app_or in F1. destruct F1 as [F1|F1]; apply in_flat_map in F1; destruct F1 as (t & _ & F1).
    + apply keys_dotted in F1. congruence.
    + unfold inner_keys in F1. apply in_flat_map in F1. destruct F1 as (u & _ & F1). apply in_map_iff in F1. destruct F1 as ((k', n') & E & _). injection E as E _. cbn [fst] in E. subst k.
      rewrite dotted_app in D. change ("." ++ k')%string with (String "."%char k') in D. rewrite dotted_cons in D. rewrite orb_true_r in D. discriminate.
  - apply read_via. apply by_promotion; [|exact P]. cbn [scope_of promoted]. apply in_flat_map. exists s. split; [exact H|]. apply in_or_app. left. exact K.
Qed.
End Read.
Lemma tsub_out tp me nm m fl fl' pi po x : ok_name fl -> shows nm po fl fl' -> In x (station_vars m) -> In (at_ fl' x) (out_names (tsub tp me nm m fl pi po)).
Proof.
  intros Hf Hs Hx. unfold out_names, tsub, group_sub. cbn [sname pout souts]. apply in_map_iff. exists (at_ fl x). split; [apply Hs|].
  unfold names, plain. rewrite map_map. cbn [fst]. rewrite map_id. apply C42_outputs; assumption.
Qed.
Ltac row H := match type of H with In _ ?r => let q := eval hnf in r in change (In _ r) with (In _ q) in H end.
Ltac each_cell := intros l c H; cbn in H; repeat (destruct H as [H|H]; [injection H as <- <-|]); try contradiction.

(* ---- a converged element inside its map ---- *)
Lemma cmap_open mp rs design w : srel (group_sub "map" (compressor_map mp rs design) (c_map_pin design) (c_map_pout design))
    (lin (group_sub "map" (compressor_map mp rs design) (c_map_pin design) (c_map_pout design)) w) (lout (group_sub "map" (compressor_map mp rs design) (c_map_pin design) (c_map_pout design)) w) ->
  exists v, solves (compressor_map mp rs design) v /\
    (forall x, In x ["Wc"; "Nc"; "PR"; "eff"; "s_Nc"; "s_PR"; "s_eff"; "s_Wc"; "SMN"; "SMW"] -> val v x = val w x) /\
    (forall x, In x ["RlineMap"; "NcMap"; "PRmap"; "WcMap"; "alphaMap"; "effMap"] -> val v x = val w ("map." ++ x)).
Proof.
  intros H. destruct (group_open _ _ _ _ _ H) as (v & Hv & Hi & Ho). exists v. split; [exact Hv|]. split; intros x Hx; unfold val.
  - assert (T : forall d, (In x (g_ins (compressor_map mp rs d)) /\ gname "map" (c_map_pin d) x = x) \/ (In x (g_outs (compressor_map mp rs d)) /\ gname "map" (c_map_pout d) x = x)).
    { clear -Hx. intros d. cbn [In] in Hx. destruct d; repeat destruct Hx as [<-|Hx]; try contradiction; first [left; split; [apply memb_in; vm_compute; reflexivity|reflexivity] | right; split; [apply memb_in; vm_compute; reflexivity|reflexivity]]. }
    destruct (T design) as [[T1 T2]|[T1 T2]]; [rewrite Hi, T2 by exact T1|rewrite Ho, T2 by exact T1]; reflexivity.
  - assert (T : forall d, (In x (g_ins (compressor_map mp rs d)) /\ gname "map" (c_map_pin d) x = ("map." ++ x)%string) \/ (In x (g_outs (compressor_map mp rs d)) /\ gname "map" (c_map_pout d) x = ("map." ++ x)%string)).
    { clear -Hx. intros d. cbn [In] in Hx. destruct d; repeat destruct Hx as [<-|Hx]; try contradiction; first [left; split; [apply memb_in; vm_compute; reflexivity|reflexivity] | right; split; [apply memb_in; vm_compute; reflexivity|reflexivity]]. }
    destruct (T design) as [[T1 T2]|[T1 T2]]; [rewrite Hi, T2 by exact T1|rewrite Ho, T2 by exact T1]; reflexivity.
Qed.
Lemma cmap_point mp rs design v : solves (compressor_map mp rs design) v ->
  on_cmap mp (val v "alphaMap") (inu "rpm" v "NcMap") (val v "RlineMap") (val v "PRmap") (val v "effMap") (inu "lbm/s" v "WcMap").
Proof.
  intros [Hs _]. assert (M := Hs (c_readmap mp "map" [PN "RlineMap"; PN "NcMap"; PN "alphaMap"] [PN "effMap"; PN "PRmap"; PN "WcMap"]) ltac:(left; reflexivity)). cbn [c_readmap srel] in M.
  assert (D : forall x, x / 1 = x) by (intros; field).
  unfold on_cmap, val, inu. rewrite <- (D (v "alphaMap" 0%nat)), <- (D (v "RlineMap" 0%nat)), <- (D (v "PRmap" 0%nat)), <- (D (v "effMap" 0%nat)). repeat split; [apply (M "PRmap")|apply (M "effMap")|apply (M "WcMap")]; inp.
Qed.

(* ---------- print_compressor ---------- *)
(* specification: what the columns of one row mean, f giving the printed number of a column *)
Definition compressor_columns mp (rs : R) (bs : list string) (w : state) (f : string -> R) : Prop :=
  (* pressure ratio and adiabatic efficiency of the stations *)
  f "Pr" * val w "Fl_I:tot:P" = val w "Fl_O:tot:P" /\
  (f "eta_a" <> 0 -> f "eta_a" * (val w "Fl_O:tot:h" - val w "Fl_I:tot:h") = val w "ideal_flow.flow:h" - val w "Fl_I:tot:h") /\
  (* polytropic efficiency *)
  (let x := val w "Fl_I:tot:R" * ln (f "Pr") in x + val w "Fl_O:tot:S" - val w "Fl_I:tot:S" <> 0 -> f "eta_p" * (x + val w "Fl_O:tot:S" - val w "Fl_I:tot:S") = x) /\
  (* corrected flow and speed of the inflow, with the standard day's temperature and pressure *)
  (let theta := val w "Fl_I:tot:T" / (ufac "degR" * T_STDeng) in let delta := val w "Fl_I:tot:P" / (ufac "psi" * P_STDeng) in
   f "Wc" = val w "Fl_I:stat:W" * rpow theta (1 / 2) / delta /\ f "Nc" = val w "Nmech" * rpow theta (- (1 / 2))) /\
  (* the power taken from the shaft *)
  f "pwr" / ufac "hp" = BTU_s2HP * ((val w "Fl_I:stat:W" * val w "Fl_I:tot:h" - (val w "Fl_O:stat:W" * val w "Fl_O:tot:h" + lsum (fun b => val w (b ++ ":stat:W") * val w (b ++ ":tot:h")) bs)) / ufac "Btu/s") /\
  (* the point of the map *)
  on_cmap mp (f "alphaMap") (f "NcMap" / ufac "rpm") (f "RlineMap") (f "PRmap") (f "effMap") (f "WcMap" / ufac "lbm/s") /\
  (f "NcMap" <> 0 -> f "PRmap" <> 1 -> f "effMap" <> 0 -> f "WcMap" <> 0 -> f "Pr" - 1 = val w "s_PR" * (f "PRmap" - 1) /\ f "Wc" = val w "s_Wc" * f "WcMap") /\
  (* the margins to the stall line of the map, at the same speed and at the same flow *)
  (exists prN wcN nW prW wcW, (mp (f "alphaMap") (f "NcMap" / ufac "rpm") rs "PRmap" prN /\ mp (f "alphaMap") (f "NcMap" / ufac "rpm") rs "WcMap" wcN) /\
    (mp (f "alphaMap") nW rs "PRmap" prW /\ mp (f "alphaMap") nW rs "WcMap" wcW /\ wcW = f "WcMap" / ufac "lbm/s") /\
    f "SMN" = (f "WcMap" / ufac "lbm/s" / wcN / (f "PRmap" / prN) - 1) * 100 /\ f "SMW" = (prW - f "PRmap") / f "PRmap" * 100).
(* every column can be read, and shows what its label says, in design and off design, with or without statics and bleeds *)
Theorem C71_compressor tp me mp rs bs statics design ps w : (forall b, In b bs -> ok_name (b ++ ":tot")) ->
  params_ok (compressor tp me mp rs bs statics design) ps -> solves (compressor tp me mp rs bs statics design) w ->
  exists f, prints (compressor_scope tp me mp rs bs statics design ps) w (compressor_row design) f /\ compressor_columns mp rs bs w f.
Proof.
  intros Hb Hp Hw. destruct (C48_compressor tp me mp rs bs statics design w Hb Hw) as (_ & _ & K1 & _ & K2 & _ & _ & K3 & _ & _).
  assert (Hs := proj1 Hw). unfold compressor in Hs. cbn [subs] in Hs.
  set (M := group_sub "map" (compressor_map mp rs design) (c_map_pin design) (c_map_pout design)) in *.
  assert (HM : In M (subs (compressor tp me mp rs bs statics design))) by (unfold compressor; cbn [subs]; apply in_or_app; left; do 2 right; left; reflexivity).
  destruct (cmap_open mp rs design w (Hs M ltac:(apply in_or_app; left; do 2 right; left; reflexivity))) as (v & Hv & Ev & Em).
  assert (Q1 := Hs c_corr_sub ltac:(apply in_or_app; left; right; left; reflexivity)).
  assert (Q2 := Hs c_eff_poly_sub ltac:(apply in_or_app; left; do 7 right; left; reflexivity)).
  assert (D : forall x, x / 1 = x) by (intros; field).
  exists (fun l => if String.eqb l "Pr" then val w "PR" else if String.eqb l "eta_a" then val w "eff" else if String.eqb l "eta_p" then val w "eff_poly" else if String.eqb l "pwr" then val w "power" else
     if memb l ["RlineMap"; "NcMap"; "PRmap"; "WcMap"; "alphaMap"; "effMap"] then val w ("map." ++ l) else val w l). split.
  - assert (OutC : forall k, In k ["Wc"; "Nc"] -> finds (compressor_scope tp me mp rs bs statics design ps) k k).
    { intros k Hk. apply (find_out _ _ _ _ Hp c_corr_sub); [unfold compressor; cbn [subs]; apply in_or_app; left; right; left; reflexivity|]. cbn in Hk |- *. tauto. }
    assert (OutP : finds (compressor_scope tp me mp rs bs statics design ps) "eff_poly" "eff_poly").
    { apply (find_out _ _ _ _ Hp c_eff_poly_sub); [unfold compressor; cbn [subs]; apply in_or_app; left; do 7 right; left; reflexivity|]. left. reflexivity. }
    assert (OutB : finds (compressor_scope tp me mp rs bs statics design ps) "power" "power").
    { apply (find_out _ _ _ _ Hp (blds_pwr_sub bs)); [unfold compressor; cbn [subs]; apply in_or_app; left; do 8 right; left; reflexivity|]. right. left. reflexivity. }
    assert (OutM : forall k, In k (["SMN"; "SMW"] ++ if design then [] else ["PR"; "eff"]) -> finds (compressor_scope tp me mp rs bs statics design ps) k k).
    { intros k Hk. apply (find_out _ _ _ _ Hp M); [exact HM|]. apply memb_in. clear -Hk. subst M. destruct design; cbn [app In] in Hk; repeat destruct Hk as [<-|Hk]; try contradiction; vm_compute; reflexivity. }
    assert (InM : forall x, In x ["RlineMap"; "NcMap"; "PRmap"; "WcMap"; "effMap"] -> finds (compressor_scope tp me mp rs bs statics design ps) ("map." ++ x)%string ("map." ++ x)%string).
    { intros x Hx. assert (T : In ("map." ++ x)%string (in_names M) \/ In ("map." ++ x)%string (out_names M)).
      { clear -Hx. subst M. cbn [In] in Hx. destruct design; repeat destruct Hx as [<-|Hx]; try contradiction; first [left; apply memb_in; vm_compute; reflexivity|right; apply memb_in; vm_compute; reflexivity]. }
      destruct T as [T|T]; [apply (find_in _ _ _ _ Hp M); [exact HM|exact T|clear -Hx; cbn [In] in Hx; repeat destruct Hx as [<-|Hx]; try contradiction; reflexivity]|apply (find_out _ _ _ _ Hp M); [exact HM|exact T]]. }
    assert (InA : forall k n, In (k, n) (inner_keys (M, compressor_map mp rs design)) -> finds (compressor_scope tp me mp rs bs statics design ps) k n).
    { intros k n H. apply (find_inner _ _ _ _ (M, compressor_map mp rs design)); [left; reflexivity|exact H]. }
    assert (InA' : (design = true -> In ("map.scalars.PR", "PR") (inner_keys (M, compressor_map mp rs design)) /\ In ("map.scalars.eff", "eff") (inner_keys (M, compressor_map mp rs design))) /\
       In ("map.map.alphaMap", "map.alphaMap") (inner_keys (M, compressor_map mp rs design))).
    { clear. subst M. split; [intros ->; split; (right; right; right; right; right; right; cbn; tauto)|destruct design; cbn; tauto]. }
    destruct InA' as [A1 A2]. intros l c H. unfold compressor_row in H. cbn [In] in H.
    repeat (destruct H as [H|H]; [injection H as <- <-; cbn [String.eqb Ascii.eqb Bool.eqb memb existsb orb]|]); try contradiction; apply read_at.
    all: try (first [apply OutC; inp|exact OutP|exact OutB|apply OutM; destruct design; cbn; tauto]).
    all: try (destruct design; [destruct (A1 eq_refl) as [A3 A4]; apply InA; assumption|apply OutM; cbn; tauto]).
    all: try (first [apply (InM "RlineMap"); inp|apply (InM "NcMap"); inp|apply (InM "PRmap"); inp|apply (InM "WcMap"); inp|apply (InM "effMap"); inp]).
    apply InA, A2.
  - unfold compressor_columns. cbn [String.eqb Ascii.eqb Bool.eqb memb existsb orb].
    split; [rewrite K1; ring|]. split; [exact K2|].
    split.
    { cbv zeta. intros N. fact1 Q2 "eff_poly". intros E.
      set (us := ufac "Btu/(lbm*degR)") in *. assert (Nu : us <> 0) by apply ufac_n0.
      change (w "eff_poly" 0%nat / 1 = w "Fl_I:tot:R" 0%nat / us * ln (w "PR" 0%nat / 1) / (w "Fl_I:tot:R" 0%nat / us * ln (w "PR" 0%nat / 1) + w "Fl_O:tot:S" 0%nat / us - w "Fl_I:tot:S" 0%nat / us)) in E.
      rewrite !D in E. unfold val in *. rewrite E. field. split; [exact Nu|exact N]. }
    split.
    { cbv zeta. fact1 Q1 "Wc". fact1 Q1 "Nc". intros E1 E2. set (uw := ufac "lbm/s") in *. assert (Nu : uw <> 0) by apply ufac_n0.
      assert (Ut : ufac "degR" <> 0) by apply ufac_n0. assert (Up : ufac "psi" <> 0) by apply ufac_n0.
      assert (N1 : T_STDeng <> 0) by (unfold T_STDeng; lra). assert (N2 : P_STDeng <> 0) by (unfold P_STDeng; lra).
      change (w "Wc" 0%nat / uw = w "Fl_I:stat:W" 0%nat / uw * rpow (w "Fl_I:tot:T" 0%nat / ufac "degR" / T_STDeng) (1 / 2) / (w "Fl_I:tot:P" 0%nat / ufac "psi" / P_STDeng)) in E2.
      change (w "Nc" 0%nat / 1 = w "Nmech" 0%nat / 1 * rpow (w "Fl_I:tot:T" 0%nat / ufac "degR" / T_STDeng) (- (1 / 2))) in E1. rewrite !D in E1.
      unfold val. replace (w "Fl_I:tot:T" 0%nat / (ufac "degR" * T_STDeng)) with (w "Fl_I:tot:T" 0%nat / ufac "degR" / T_STDeng) by (field; auto).
      replace (w "Fl_I:tot:P" 0%nat / (ufac "psi" * P_STDeng)) with (w "Fl_I:tot:P" 0%nat / ufac "psi" / P_STDeng) by (field; auto).
      split; [|exact E1]. apply (Rmult_eq_reg_r (/ uw)); [|apply Rinv_neq_0_compat; exact Nu]. unfold Rdiv in *. rewrite E2. ring. }
    split; [exact K3|].
    assert (Em' : forall x, In x ["RlineMap"; "NcMap"; "PRmap"; "WcMap"; "alphaMap"; "effMap"] -> val w ("map." ++ x) = val v x) by (intros; symmetry; auto).
    rewrite !Em' by inp. split; [exact (cmap_point mp rs design v Hv)|]. split.
    { intros N1 N2 N3 N4. destruct (scaled_point mp rs design v Hv ltac:(auto)) as [S1 S2]. rewrite !Ev in S1 by inp. unfold inu in S2. assert (Nl := ufac_n0 "lbm/s").
      split; [exact S1|]. rewrite <- (Ev "Wc"), <- (Ev "s_Wc") by inp. unfold val. apply (Rmult_eq_reg_r (/ ufac "lbm/s")); [|apply Rinv_neq_0_compat; exact Nl]. unfold Rdiv in S2. rewrite S2. unfold val. ring. }
    destruct (C53_stall_margins mp rs design v Hv) as (prN & wcN & nW & prW & wcW & P). exists prN, wcN, nW, prW, wcW. rewrite <- (Ev "SMN"), <- (Ev "SMW") by inp. exact P.
Qed.

(* ---------- print_turbine ---------- *)
Lemma tmap_open mp design w : srel (group_sub "map" (turbine_map mp design) (t_map_pin design) (t_map_pout design))
    (lin (group_sub "map" (turbine_map mp design) (t_map_pin design) (t_map_pout design)) w) (lout (group_sub "map" (turbine_map mp design) (t_map_pin design) (t_map_pout design)) w) ->
  exists v, solves (turbine_map mp design) v /\
    (forall x, In x ["Wp"; "Np"; "PR"; "eff"; "s_Np"; "s_PR"; "s_eff"; "s_Wp"] -> val v x = val w x) /\
    (forall x, In x ["NpMap"; "PRmap"; "WpMap"; "alphaMap"; "effMap"] -> val v x = val w ("map." ++ x)).
Proof.
  intros H. destruct (group_open _ _ _ _ _ H) as (v & Hv & Hi & Ho). exists v. split; [exact Hv|]. split; intros x Hx; unfold val.
  - assert (T : forall d, (In x (g_ins (turbine_map mp d)) /\ gname "map" (t_map_pin d) x = x) \/ (In x (g_outs (turbine_map mp d)) /\ gname "map" (t_map_pout d) x = x)).
    { clear -Hx. intros d. cbn [In] in Hx. destruct d; repeat destruct Hx as [<-|Hx]; try contradiction; first [left; split; [apply memb_in; vm_compute; reflexivity|reflexivity] | right; split; [apply memb_in; vm_compute; reflexivity|reflexivity]]. }
    destruct (T design) as [[T1 T2]|[T1 T2]]; [rewrite Hi, T2 by exact T1|rewrite Ho, T2 by exact T1]; reflexivity.
  - assert (T : forall d, (In x (g_ins (turbine_map mp d)) /\ gname "map" (t_map_pin d) x = ("map." ++ x)%string) \/ (In x (g_outs (turbine_map mp d)) /\ gname "map" (t_map_pout d) x = ("map." ++ x)%string)).
    { clear -Hx. intros d. cbn [In] in Hx. destruct d; repeat destruct Hx as [<-|Hx]; try contradiction; first [left; split; [apply memb_in; vm_compute; reflexivity|reflexivity] | right; split; [apply memb_in; vm_compute; reflexivity|reflexivity]]. }
    destruct (T design) as [[T1 T2]|[T1 T2]]; [rewrite Hi, T2 by exact T1|rewrite Ho, T2 by exact T1]; reflexivity.
Qed.
Lemma tmap_point mp design v : solves (turbine_map mp design) v ->
  on_tmap mp (val v "alphaMap") (inu "rpm" v "NpMap") (val v "PRmap") (val v "effMap") (inu "lbm/s" v "WpMap") /\
  (val v "NpMap" <> 0 -> val v "PRmap" <> 1 -> val v "PR" - 1 = val v "s_PR" * (val v "PRmap" - 1) /\ val v "Np" = val v "s_Np" * val v "NpMap") /\
  (val v "effMap" <> 0 -> val v "eff" = val v "s_eff" * val v "effMap").
Proof.
  intros [Hs Hc]. assert (M := Hs (t_readmap mp) ltac:(left; reflexivity)). cbn [t_readmap srel] in M. assert (D : forall x, x / 1 = x) by (intros; field). split.
  { unfold on_tmap, val, inu. rewrite <- (D (v "alphaMap" 0%nat)), <- (D (v "PRmap" 0%nat)), <- (D (v "effMap" 0%nat)). split; [apply (M "effMap")|apply (M "WpMap")]; inp. }
  assert (U : ufac "rpm" = 1) by reflexivity. destruct design.
  - assert (S := Hs t_scalars_sub ltac:(right; left; reflexivity)). fact1 S "s_Np". fact1 S "s_PR". fact1 S "s_eff". intros E3 E2 E1.
    change (v "s_eff" 0%nat / 1 = v "eff" 0%nat / 1 / (v "effMap" 0%nat / 1)) in E3. change (v "s_PR" 0%nat / 1 = (v "PR" 0%nat / 1 - 1) / (v "PRmap" 0%nat / 1 - 1)) in E2. change (v "s_Np" 0%nat / 1 = v "Np" 0%nat / 1 / (v "NpMap" 0%nat / 1)) in E1.
    rewrite !D in *. unfold val. rewrite E1, E2, E3. split; [intros N1 N2; split; field; auto; lra|intros N; field; exact N].
  - assert (S := Hs t_scaled_sub ltac:(right; left; reflexivity)). fact1 S "Np". fact1 S "PR". fact1 S "eff". intros E3 E2 E1.
    change (v "eff" 0%nat / 1 = v "effMap" 0%nat / 1 * (v "s_eff" 0%nat / 1)) in E3. change (v "PR" 0%nat / 1 = (v "PRmap" 0%nat / 1 - 1) * (v "s_PR" 0%nat / 1) + 1) in E2. change (v "scaledOutput.Np" 0%nat / 1 = v "NpMap" 0%nat / 1 * (v "s_Np" 0%nat / 1)) in E1.
    assert (B := Hs (bal_sub "map_bal" [mkBal "NpMap" "rpm" "rpm" "lhs:NpMap" "rhs:NpMap"; mkBal "PRmap" "" "lbm/s" "lhs:PRmap" "rhs:PRmap"] [PA "lhs:NpMap" "Np"; PA "lhs:PRmap" "Wp"] [PN "NpMap"; PN "PRmap"]) ltac:(do 2 right; left; reflexivity)).
    assert (B1 := B (mkBal "NpMap" "rpm" "rpm" "lhs:NpMap" "rhs:NpMap") ltac:(inp)). change (v "Np" 0%nat / 1 = v "map_bal.rhs:NpMap" 0%nat / 1) in B1. rewrite (Hc "scaledOutput.Np" "map_bal.rhs:NpMap") in B1 by (left; reflexivity).
    rewrite !D in *. unfold val. rewrite B1, E1, E2, E3. split; [intros _ _; split; ring|intros _; ring].
Qed.
Definition turbine_columns mp (bs : list string) (w : state) (f : string -> R) : Prop :=
  (f "PR" <> 0 -> f "PR" * val w "Fl_O:tot:P" = val w "Fl_I:tot:P") /\
  (* adiabatic efficiency of the main stream's expansion, before the cooling flows are mixed in *)
  val w "Fl_I:tot:h" - val w "real_flow_b4bld.Fl_O_b4bld:tot:h" = f "eff_a" * (val w "Fl_I:tot:h" - val w "ideal_flow.flow:h") /\
  (* polytropic efficiency of the same expansion *)
  f "eff_p" = 1 + (val w "real_flow_b4bld.Fl_O_b4bld:tot:S" - val w "Fl_I:tot:S") / (val w "Fl_I:tot:R" * ln (1 / f "PR")) /\
  (* swallowing capacity and speed parameter of the inflow (degR, psi) *)
  f "Wp" = val w "Fl_I:stat:W" * rpow (val w "Fl_I:tot:T" / ufac "degR") (1 / 2) / (val w "Fl_I:tot:P" / ufac "psi") /\
  f "Np" = val w "Nmech" * rpow (val w "Fl_I:tot:T" / ufac "degR") (- (1 / 2)) /\
  (* the power given to the shaft *)
  (val w "Fl_O:stat:W" <> 0 ->
   f "pwr" / ufac "hp" = BTU_s2HP * ((val w "Fl_I:stat:W" * val w "Fl_I:tot:h" + lsum (fun b => val w (b ++ ":stat:W") * val w (b ++ ":tot:h")) bs - val w "Fl_O:stat:W" * val w "Fl_O:tot:h") / ufac "Btu/s")) /\
  (* the point of the map *)
  (exists eff0 wp0, on_tmap mp (f "alphaMap") (f "NpMap" / ufac "rpm") (f "PRmap") eff0 wp0 /\ (eff0 <> 0 -> f "eff_a" = val w "s_eff" * eff0)) /\
  (f "NpMap" <> 0 -> f "PRmap" <> 1 -> f "PR" - 1 = val w "s_PR" * (f "PRmap" - 1) /\ f "Np" = val w "s_Np" * f "NpMap").
Theorem C71_turbine tp me mp a bs statics design ps w : (forall b, In b bs -> contains ":" b = false) -> flow_adder a bs ->
  params_ok (turbine tp me mp a bs statics design) ps -> solves (turbine tp me mp a bs statics design) w ->
  exists f, prints (turbine_scope tp me mp a bs statics design ps) w (turbine_row design) f /\ turbine_columns mp bs w f.
Proof.
  intros Hb Ha Hp Hw. destruct (C48_turbine tp me mp a bs statics design w Hb Ha Hw) as (_ & _ & K1 & _ & (_ & _ & _ & K2) & _ & K3 & _ & _).
  assert (Hs := proj1 Hw). assert (Hc := proj2 Hw).
  set (M := group_sub "map" (turbine_map mp design) (t_map_pin design) (t_map_pout design)) in *.
  assert (HM : In M (subs (turbine tp me mp a bs statics design))) by (unfold turbine; cbn [subs]; apply in_or_app; left; do 2 right; left; reflexivity).
  assert (HC : In t_corr_sub (subs (turbine tp me mp a bs statics design))) by (unfold turbine; cbn [subs]; apply in_or_app; left; right; left; reflexivity).
  assert (HE : In t_eff_poly_sub (subs (turbine tp me mp a bs statics design))) by (unfold turbine; cbn [subs]; do 4 (apply in_or_app; right); apply in_or_app; left; do 2 right; left; reflexivity).
  assert (HT : In (pwr_turb_sub bs) (subs (turbine tp me mp a bs statics design))) by (unfold turbine; cbn [subs]; do 4 (apply in_or_app; right); apply in_or_app; left; left; reflexivity).
  destruct (tmap_open mp design w (Hs M HM)) as (v & Hv & Ev & Em). assert (Q1 := Hs _ HC). assert (Q2 := Hs _ HE).
  assert (Ce : w "eff_poly_calc.S_out" 0%nat = w "real_flow_b4bld.Fl_O_b4bld:tot:S" 0%nat).
  { apply Hc. unfold turbine; cbn [conns]. do 2 (apply in_or_app; right). apply in_or_app; left. do 3 right. left. reflexivity. }
  assert (D : forall x, x / 1 = x) by (intros; field).
  exists (fun l => if String.eqb l "eff_a" then val w "eff" else if String.eqb l "eff_p" then val w "eff_poly" else if String.eqb l "pwr" then val w "power" else
     if memb l ["NpMap"; "PRmap"; "alphaMap"] then val w ("map." ++ l) else val w l). split.
  - assert (OutC : forall k, In k ["Wp"; "Np"] -> finds (turbine_scope tp me mp a bs statics design ps) k k) by (intros k Hk; apply (find_out _ _ _ _ Hp t_corr_sub); [exact HC|cbn in Hk |- *; tauto]).
    assert (OutP : finds (turbine_scope tp me mp a bs statics design ps) "eff_poly" "eff_poly") by (apply (find_out _ _ _ _ Hp t_eff_poly_sub); [exact HE|left; reflexivity]).
    assert (OutB : finds (turbine_scope tp me mp a bs statics design ps) "power" "power") by (apply (find_out _ _ _ _ Hp (pwr_turb_sub bs)); [exact HT|do 2 right; left; reflexivity]).
    assert (OutM : design = false -> forall k, In k ["PR"; "eff"] -> finds (turbine_scope tp me mp a bs statics design ps) k k).
    { intros Ed k Hk. apply (find_out _ _ _ _ Hp M); [exact HM|]. apply memb_in. clear -Hk Ed. subst M design. cbn [app In] in Hk; repeat destruct Hk as [<-|Hk]; try contradiction; vm_compute; reflexivity. }
    assert (InM : forall x, In x ["NpMap"; "PRmap"; "alphaMap"] -> finds (turbine_scope tp me mp a bs statics design ps) ("map." ++ x)%string ("map." ++ x)%string).
    { intros x Hx. assert (T : In ("map." ++ x)%string (in_names M) \/ In ("map." ++ x)%string (out_names M)).
      { clear -Hx. subst M. cbn [In] in Hx. destruct design; repeat destruct Hx as [<-|Hx]; try contradiction; first [left; apply memb_in; vm_compute; reflexivity|right; apply memb_in; vm_compute; reflexivity]. }
      destruct T as [T|T]; [apply (find_in _ _ _ _ Hp M); [exact HM|exact T|clear -Hx; cbn [In] in Hx; repeat destruct Hx as [<-|Hx]; try contradiction; reflexivity]|apply (find_out _ _ _ _ Hp M); [exact HM|exact T]]. }
    assert (InA : design = true -> finds (turbine_scope tp me mp a bs statics design ps) "map.scalars.PR" "PR" /\ finds (turbine_scope tp me mp a bs statics design ps) "map.scalars.eff" "eff").
    { intros Ed. split; apply (find_inner _ _ _ _ (M, turbine_map mp design)); try (left; reflexivity); clear -Ed; subst M design; cbn; tauto. }
    intros l c H. unfold turbine_row in H. cbn [In] in H.
    repeat (destruct H as [H|H]; [injection H as <- <-; cbn [String.eqb Ascii.eqb Bool.eqb memb existsb orb]|]); try contradiction; apply read_via.
    all: try (first [apply OutC; inp|exact OutP|exact OutB]).
    all: try (destruct design; [destruct (InA eq_refl); assumption|apply (OutM eq_refl); cbn; tauto]).
    all: try (first [apply (InM "NpMap"); mem|apply (InM "PRmap"); mem|apply (InM "alphaMap"); mem]).
  - unfold turbine_columns. cbn [String.eqb Ascii.eqb Bool.eqb memb existsb orb].
    split; [exact K1|]. split; [exact K2|].
    split.
    { fact1 Q2 "eff_poly". intros E. set (us := ufac "Btu/(lbm*degR)") in *. assert (Nu : us <> 0) by apply ufac_n0.
      change (w "eff_poly" 0%nat / 1 = 1 + (w "eff_poly_calc.S_out" 0%nat / us - w "Fl_I:tot:S" 0%nat / us) / (w "Fl_I:tot:R" 0%nat / us * ln (1 / (w "PR" 0%nat / 1)))) in E.
      rewrite !D, Ce in E. unfold val in *. rewrite E. f_equal. unfold Rdiv. set (lg := ln (1 * / w "PR" 0%nat)).
      replace (w "Fl_I:tot:R" 0%nat * / us * lg) with (/ us * (w "Fl_I:tot:R" 0%nat * lg)) by ring. rewrite Rinv_mult, Rinv_inv. set (x := / (w "Fl_I:tot:R" 0%nat * lg)). field. exact Nu. }
    fact1 Q1 "Wp". fact1 Q1 "Np". intros E1 E2. set (uw := ufac "lbm/s") in *. assert (Nu : uw <> 0) by apply ufac_n0.
    change (w "Wp" 0%nat / uw = w "Fl_I:stat:W" 0%nat / uw * rpow (w "Fl_I:tot:T" 0%nat / ufac "degR") (1 / 2) / (w "Fl_I:tot:P" 0%nat / ufac "psi")) in E2.
    change (w "Np" 0%nat / 1 = w "Nmech" 0%nat / 1 * rpow (w "Fl_I:tot:T" 0%nat / ufac "degR") (- (1 / 2))) in E1. rewrite !D in E1.
    split; [unfold val; apply (Rmult_eq_reg_r (/ uw)); [|apply Rinv_neq_0_compat; exact Nu]; unfold Rdiv in *; rewrite E2; ring|]. split; [exact E1|].
    split; [intros N; apply K3; exact N|].
    destruct (tmap_point mp design v Hv) as (T1 & T2 & T3). rewrite (Ev "PR"), (Ev "s_PR"), (Ev "Np"), (Ev "s_Np"), (Em "NpMap"), (Em "PRmap") in T2 by mem. rewrite (Ev "eff"), (Ev "s_eff") in T3 by mem.
    split; [|exact T2]. rewrite <- (Em "NpMap"), <- (Em "PRmap"), <- (Em "alphaMap") by mem. exists (val v "effMap"), (inu "lbm/s" v "WpMap"). split; [exact T1|exact T3].
Qed.

(* ---------- print_burner ---------- *)
Lemma mix_in tp me a (statics design : bool) s : In s [add_sub "mix_fuel" a [PN "Fl_I:stat:W"; PA "mix:ratio" "Fl_I:FAR"; PN "Fl_I:tot:composition"; PN "Fl_I:tot:h"] [PA "mix:W" "Wfuel"; PN "Wout"]; p_loss_sub; tsub tp me "vitiated_flow" total_hP "Fl_O:tot" [] [PG "Fl_O:"]] -> In s (subs (combustor tp me a statics design)).
Proof. intros H. unfold combustor. cbn [subs]. apply in_or_app. left. right. exact H. Qed.
(* FAR is the fuel flow over the flow that enters the burner; with CEA this is the fuel-air ratio the user sets *)
Theorem C71_burner tp me a statics design ps w : fuel_adder a -> params_ok (combustor tp me a statics design) ps -> solves (combustor tp me a statics design) w ->
  exists f, prints (combustor_scope tp me a statics design ps) w burner_row f /\
    val w "Fl_O:tot:P" = val w "Fl_I:tot:P" * (1 - f "dPqP") /\ f "TtOut" = val w "Fl_O:tot:T" /\ f "Wfuel" = val w "Wfuel" /\
    (val w "Fl_O:stat:W" <> 0 -> burner_far (f "Wfuel") (f "W_tot") = val w "Wfuel" / val w "Fl_I:stat:W" /\
       (val w "Fl_I:stat:W" <> 0 -> match a with ACea _ => burner_far (f "Wfuel") (f "W_tot") = val w "Fl_I:FAR" | ATab _ => True end)).
Proof.
  intros Ha Hp Hw. destruct (C48_combustor tp me a statics design w Ha Hw) as (_ & K1 & K2 & _). destruct (fuel_adder_facts a Ha) as (R1 & R2 & _).
  exists (fun l => if String.eqb l "TtOut" then val w "Fl_O:tot:T" else if String.eqb l "W_tot" then val w "Fl_O:stat:W" else val w l). split.
  - intros l c H. unfold burner_row in H. cbn [In] in H. repeat (destruct H as [H|H]; [injection H as <- <-; cbn [String.eqb Ascii.eqb Bool.eqb]|]); try contradiction.
    + apply (via_in _ _ _ _ w p_loss_sub); [apply mix_in; mem|mem|reflexivity].
    + apply read_via. apply (find_out _ _ _ _ Hp (tsub tp me "vitiated_flow" total_hP "Fl_O:tot" [] [PG "Fl_O:"])); [apply mix_in; mem|]. apply (tsub_out tp me "vitiated_flow" total_hP "Fl_O:tot" "Fl_O:tot" [] [PG "Fl_O:"] "T"); [okn|shw|inp].
    + apply read_via. apply (find_out _ _ _ _ Hp (add_sub "mix_fuel" a [PN "Fl_I:stat:W"; PA "mix:ratio" "Fl_I:FAR"; PN "Fl_I:tot:composition"; PN "Fl_I:tot:h"] [PA "mix:W" "Wfuel"; PN "Wout"])); [apply mix_in; mem|].
      unfold out_names, add_sub. cbn [sname pout souts]. unfold add_outs. rewrite R1, R2. cbn. tauto.
    + apply read_via. destruct statics.
      * apply (find_out _ _ _ _ Hp (tsub tp me "out_stat" (stat_mode design) "Fl_O:stat" [PN (if design then "MN" else "area")] [PG "Fl_O:stat:"])); [unfold combustor; cbn [subs]; apply in_or_app; right; left; reflexivity|].
        apply (tsub_out tp me "out_stat" (stat_mode design) "Fl_O:stat" "Fl_O:stat" _ _ "W"); [okn|shw|destruct design; cbn; tauto].
      * apply (find_out _ _ _ _ Hp (pass_sub "W_passthru" "Wout" "Fl_O:stat:W")); [unfold combustor; cbn [subs]; apply in_or_app; right; left; reflexivity|]. left. reflexivity.
  - cbn [String.eqb Ascii.eqb Bool.eqb]. split; [exact K1|]. split; [reflexivity|]. split; [reflexivity|]. intros N. destruct (K2 N) as (E1 & _ & E2). unfold burner_far. cbv zeta.
    replace (val w "Fl_O:stat:W" - val w "Wfuel") with (val w "Fl_I:stat:W") by lra. split; [reflexivity|]. intros NI. destruct a; [|exact Logic.I]. rewrite E2. field. exact NI.
Qed.

(* ---------- print_nozzle ---------- *)
Definition nozzle_columns (nt : nozz) (lc : loss_coef) (w : state) (f : string -> R) : Prop :=
  (f "PR" <> 0 -> f "PR" * val w "Ps_exhaust" = val w "Fl_O:tot:P") /\
  (* throat area, throat and exit Mach number, exit velocity: of the sonic state or of the full expansion, by nozzle type *)
  (let choked := val w "Ps_exhaust" < val w (at_ "staticMN.flow" "P") in
   (nt = CD -> f "Ath" = val w (at_ "staticMN.flow" "area") /\ f "MNth" = 1) /\
   (nt <> CD -> choked -> f "Ath" = val w (at_ "staticMN.flow" "area") /\ f "MNth" = 1) /\
   (nt <> CD -> ~ choked -> f "Ath" = val w (at_ "staticPs.flow" "area") /\ f "MNth" = val w (at_ "staticPs.flow" "MN")) /\
   (nt = CV -> choked -> f "MNout" = 1 /\ f "V" = val w (at_ "staticMN.flow" "V")) /\
   (nt = CV -> ~ choked -> f "MNout" = val w (at_ "staticPs.flow" "MN") /\ f "V" = val w (at_ "staticPs.flow" "V")) /\
   (nt <> CV -> f "MNout" = val w (at_ "staticPs.flow" "MN") /\ f "V" = val w (at_ "staticPs.flow" "V"))) /\
  (* gross thrust from the printed coefficient (and exit velocity) *)
  match lc with
  | Cfg => f "Fg" / ufac "lbf" = f "Cfg" * ((val w "Fl_I:stat:W" / ufac "lbm/s") * (val w (at_ "ideal_flow.flow" "V") / ufac "ft/s") / g_c)
  | Cv => f "Fg" / ufac "lbf" = f "Cv" * val w "perf_calcs.Cang" * val w "perf_calcs.CmixCorr" * ((val w "Fl_I:stat:W" / ufac "lbm/s") * (f "V" / ufac "ft/s") / g_c) +
          ((val w "Fl_O:stat:P" - val w "Ps_exhaust") * val w "Fl_O:stat:area") / ufac "lbf"
  end.
Theorem C71_nozzle tp me nt lc ps w : params_ok (nozzle tp me nt lc) ps -> solves (nozzle tp me nt lc) w ->
  exists f, prints (nozzle_scope tp me nt lc ps) w (nozzle_row lc) f /\ nozzle_columns nt lc w f.
Proof.
  intros Hp Hw. destruct (C48_nozzle tp me nt lc w Hw) as (_ & _ & _ & _ & K1 & (_ & KM) & _ & _ & V1 & V2 & V3 & _ & _ & _ & _ & F1 & F2).
  exists (fun l => if String.eqb l "Ath" then val w "Throat:stat:area" else if String.eqb l "MNth" then val w "Throat:stat:MN" else if String.eqb l "MNout" then val w "Fl_O:stat:MN" else if String.eqb l "V" then val w "Fl_O:stat:V" else val w l). split.
  - assert (Om : forall k, In k ["Throat:stat:area"; "Throat:stat:MN"; "Fl_O:stat:MN"; "Fl_O:stat:V"] -> finds (nozzle_scope tp me nt lc ps) k k).
    { intros k Hk. apply (find_out _ _ _ _ Hp (mux_sub nt)); [unfold nozzle; cbn [subs]; do 8 right; left; reflexivity|]. apply memb_in. clear -Hk. cbn [In] in Hk. repeat destruct Hk as [<-|Hk]; try contradiction; vm_compute; reflexivity. }
    assert (Op : finds (nozzle_scope tp me nt lc ps) "PR" "PR") by (apply (find_out _ _ _ _ Hp pr_bal_sub); [unfold nozzle; cbn [subs]; do 2 right; left; reflexivity|mem]).
    assert (Of : finds (nozzle_scope tp me nt lc ps) "Fg" "Fg") by (apply (find_out _ _ _ _ Hp (perf_sub lc)); [unfold nozzle; cbn [subs]; do 9 right; left; reflexivity|do 1 right; left; reflexivity]).
    assert (Ic : cell_val (nozzle_scope tp me nt lc ps) w (Via (match lc with Cv => "Cv" | Cfg => "Cfg" end)) (val w (match lc with Cv => "Cv" | Cfg => "Cfg" end))).
    { apply (via_in _ _ _ _ w (perf_sub lc)); [unfold nozzle; cbn [subs]; do 9 right; left; reflexivity|apply memb_in; clear; destruct lc; vm_compute; reflexivity|destruct lc; reflexivity]. }
    intros l c H. unfold nozzle_row in H. cbn [In] in H. destruct H as [H|[H|H]].
    + injection H as <- <-. apply read_via. exact Op.
    + destruct lc; injection H as <- <-; exact Ic.
    + repeat (destruct H as [H|H]; [injection H as <- <-; cbn [String.eqb Ascii.eqb Bool.eqb]|]); try contradiction; apply read_via; first [exact Of|apply Om; mem].
  - unfold nozzle_columns. cbn [String.eqb Ascii.eqb Bool.eqb]. split; [exact K1|]. split.
    + cbv zeta in *. set (choked := val w "Ps_exhaust" < val w (at_ "staticMN.flow" "P")) in *.
      assert (S1 : forall st src, shows_state w st src -> val w (at_ st "area") = val w (at_ src "area") /\ val w (at_ st "MN") = val w (at_ src "MN") /\ val w (at_ st "V") = val w (at_ src "V")).
      { intros st src H. repeat split; apply H; mem. }
      change (val w "Throat:stat:area") with (val w (at_ "Throat:stat" "area")). change (val w "Throat:stat:MN") with (val w (at_ "Throat:stat" "MN")).
      change (val w "Fl_O:stat:MN") with (val w (at_ "Fl_O:stat" "MN")). change (val w "Fl_O:stat:V") with (val w (at_ "Fl_O:stat" "V")).
      clear -V1 V2 V3 KM S1.
      assert (G : forall (P : Prop), P -> P) by auto.
      destruct nt; [destruct (V1 eq_refl) as [W1 W2]; clear V1 V2 V3|destruct (V2 eq_refl) as [W1 W2]; clear V1 V2 V3|destruct (V3 eq_refl) as (W0 & W1 & W2); clear V1 V2 V3];
      (split; [|split; [|split; [|split; [|split]]]]); intros; try congruence;
      repeat match goal with W : ?c -> _ /\ _, H : ?c |- _ => specialize (W H) | W : ?c -> shows_state _ _ _, H : ?c |- _ => specialize (W H) | W : shows_state _ _ _ /\ _ |- _ => destruct W end;
      repeat match goal with H : shows_state w _ _ |- _ => apply S1 in H; destruct H as (? & ? & ?) end; split; congruence.
    + destruct lc; [apply F1; reflexivity|apply F2; reflexivity].
Qed.

