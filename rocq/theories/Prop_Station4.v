(* Claim C48, continued: the compressor. *)
From Coq Require Import FunctionalExtensionality Lia.
From Verif Require Import Lib_R Lib_Loop Spec_Wire Model_Thermo Proofs_Wire Prop_Static Prop_Thermo Prop_Turbo Model_Elem1 Model_Elem2 Proofs_Elem Prop_Station Prop_Station3 Proofs_Elem3.
Open Scope string_scope. Open Scope list_scope. Open Scope R_scope.

Lemma usc u x : ufac u <> 0 -> x = x / ufac u * ufac u. Proof. intros N. field. exact N. Qed.
(* ---- the bleed and power component: names and units ---- *)
Section Blds.
Variables (bs : list string) (w : state).
Let e := vget (lin (blds_pwr_sub bs) w).
Let o := vget (lout (blds_pwr_sub bs) w).
Lemma bp_in_frac b x : In b bs -> In x ["frac_W"; "frac_P"; "frac_work"] -> e (B b x) = val w (b ++ ":" ++ x).
Proof.
  intros Hb Hx. unfold e, vget, lin, blds_pwr_sub. cbn [sname pin sins].
  assert (G : gname "blds_pwr" ([PN "Nmech"; PA "W_in" "Fl_I:stat:W"; PA "ht_in" "Fl_I:tot:h"; PA "Pt_in" "Fl_I:tot:P"; PA "Pt_out" "Fl_O:tot:P"] ++
     flat_map (fun b => map (fun x => PN (b ++ ":" ++ x)%string) ["frac_W"; "frac_P"; "frac_work"]) bs) (b ++ ":" ++ x) = (b ++ ":" ++ x)%string).
  { unfold gname. cbn [pname app]. rewrite !(String.eqb_sym (b ++ ":" ++ x)).
    rewrite !(eqb_suffix b (":" ++ x)) by (cbn in Hx; repeat destruct Hx as [<-|Hx]; try contradiction; reflexivity).
    assert (Q : flat_map (fun b => map (fun x => PN (b ++ ":" ++ x)%string) ["frac_W"; "frac_P"; "frac_work"]) bs =
                map PN (flat_map (fun b => map (fun x => (b ++ ":" ++ x)%string) ["frac_W"; "frac_P"; "frac_work"]) bs)).
    { rewrite <- flat_map_map. apply flat_map_ext. intros c. rewrite map_map. reflexivity. }
    rewrite Q. rewrite <- (app_nil_r (map PN _)). rewrite pname_in_PN; [reflexivity|]. apply in_flat_map. exists b. split; [exact Hb|]. apply (in_map (fun x => (b ++ ":" ++ x)%string)). exact Hx. }
  rewrite G. unfold val. replace (ufac (unit_of _ _)) with 1; [field|]. symmetry. unfold unit_of. erewrite lookup_uniq; [| |].
  - rewrite <- ufac_none. f_equal. instantiate (1 := ("", "0.0")). reflexivity.
  - intros p Hp Ef. apply in_app_or in Hp. destruct Hp as [Hp|Hp].
    + exfalso. revert Ef. cbn in Hx, Hp. repeat destruct Hx as [<-|Hx]; try contradiction; repeat destruct Hp as [<-|Hp]; try contradiction; cbn [fst]; apply neq_suffix; reflexivity.
    + apply in_flat_map in Hp. destruct Hp as [c [_ Hp]]. cbn in Hp. repeat destruct Hp as [<-|Hp]; try contradiction; reflexivity.
  - rewrite map_app. apply in_or_app. right. apply in_map_iff. exists ((b ++ ":" ++ x)%string, ("", "0.0")). split; [reflexivity|]. apply in_flat_map. exists b. split; [exact Hb|].
    cbn in Hx |- *. repeat destruct Hx as [<-|Hx]; try contradiction; tauto.
Qed.
Lemma bp_out_gname b x : In b bs -> In x ["stat:W"; "Pt"; "ht"] -> gname "blds_pwr" ([PN "power"; PN "trq"; PN "W_out"] ++ map (fun b => PG (b ++ ":")%string) bs) (b ++ ":" ++ x) = (b ++ ":" ++ x)%string.
Proof.
  intros Hb Hx. unfold gname. cbn [pname app]. rewrite !(String.eqb_sym (b ++ ":" ++ x)).
  rewrite !(eqb_suffix b (":" ++ x)) by (cbn in Hx; repeat destruct Hx as [<-|Hx]; try contradiction; reflexivity).
  rewrite <- sapp_assoc. rewrite (pname_globs (fun b => (b ++ ":")%string) bs b x Hb). reflexivity.
Qed.
Lemma bp_out_unit b x u : In b bs -> In (x, u) [("stat:W", "lbm/s"); ("Pt", "psi"); ("ht", "Btu/lbm")] -> unit_of (souts (blds_pwr_sub bs)) (b ++ ":" ++ x) = u.
Proof.
  intros Hb Hx. unfold unit_of, blds_pwr_sub. cbn [souts]. erewrite lookup_uniq; [| |].
  - instantiate (1 := (u, "")). reflexivity.
  - intros p Hp Ef. apply in_app_or in Hp. destruct Hp as [Hp|Hp].
    + exfalso. revert Ef. cbn in Hx, Hp. repeat destruct Hx as [Hx|Hx]; try contradiction; injection Hx as <- <-; repeat destruct Hp as [<-|Hp]; try contradiction; cbn [fst]; apply neq_suffix; reflexivity.
    + apply in_flat_map in Hp. destruct Hp as [c [_ Hp]]. cbn in Hx, Hp.
      repeat destruct Hx as [Hx|Hx]; try contradiction; injection Hx as <- <-; repeat destruct Hp as [<-|Hp]; try contradiction; try reflexivity; exfalso; revert Ef; cbn [fst append]; apply suffix_clash; reflexivity.
  - rewrite map_app. apply in_or_app. right. apply in_map_iff. exists ((b ++ ":" ++ x)%string, (u, "")). split; [reflexivity|]. apply in_flat_map. exists b. split; [exact Hb|].
    cbn in Hx |- *. repeat destruct Hx as [Hx|Hx]; try contradiction; injection Hx as <- <-; cbn; tauto.
Qed.
Lemma bp_out b x u : In b bs -> In (x, u) [("stat:W", "lbm/s"); ("Pt", "psi"); ("ht", "Btu/lbm")] -> o (B b x) = val w (b ++ ":" ++ x) / ufac u.
Proof.
  intros Hb Hx. unfold o, vget, lout. rewrite (bp_out_unit b x u Hb Hx). unfold blds_pwr_sub. cbn [sname pout].
  rewrite bp_out_gname; [reflexivity|exact Hb|]. cbn in Hx |- *. repeat destruct Hx as [Hx|Hx]; try contradiction; injection Hx as <- _; tauto.
Qed.
Lemma bp_facts : srel (blds_pwr_sub bs) (lin (blds_pwr_sub bs) w) (lout (blds_pwr_sub bs) w) ->
  (forall b, In b bs -> val w (b ++ ":stat:W") = val w (b ++ ":frac_W") * val w "Fl_I:stat:W" /\
     val w (b ++ ":Pt") - val w "Fl_I:tot:P" = val w (b ++ ":frac_P") * (val w "Fl_O:tot:P" - val w "Fl_I:tot:P") /\
     val w (b ++ ":ht") - val w "Fl_I:tot:h" = val w (b ++ ":frac_work") * (val w "blds_pwr.ht_out" - val w "Fl_I:tot:h")) /\
  val w "W_out" + lsum (fun b => val w (b ++ ":stat:W")) bs = val w "Fl_I:stat:W" /\
  val w "power" / ufac "hp" = BTU_s2HP * ((val w "Fl_I:stat:W" * val w "Fl_I:tot:h" - (val w "W_out" * val w "blds_pwr.ht_out" + lsum (fun b => val w (b ++ ":stat:W") * val w (b ++ ":ht")) bs)) / ufac "Btu/s") /\
  (val w "Nmech" <> 0 -> val w "trq" / ufac "ft*lbf" * val w "Nmech" = HP_per_RPM_to_FT_LBF * (val w "power" / ufac "hp")).
Proof.
  intros HB. set (c := compute (bleeds_and_power bs) e (fun _ => 0)).
  assert (HO : forall v, In v (outs (bleeds_and_power bs)) -> o v = c v) by exact HB.
  assert (HOb : forall b x, In b bs -> In x ["stat:W"; "Pt"; "ht"] -> o (B b x) = c (B b x)).
  { intros b x Hb Hx. apply HO. cbn [bleeds_and_power outs]. apply in_or_app. right. apply in_flat_map. exists b. split; [exact Hb|]. cbn in Hx |- *. repeat destruct Hx as [<-|Hx]; try contradiction; tauto. }
  set (uw := ufac "lbm/s"). set (uh := ufac "Btu/lbm"). set (up := ufac "psi").
  assert (N1 : uw <> 0) by apply ufac_n0. assert (N2 : uh <> 0) by apply ufac_n0. assert (N3 : up <> 0) by apply ufac_n0.
  assert (EW : e (V "W_in") = val w "Fl_I:stat:W" / uw) by reflexivity. assert (Eh : e (V "ht_in") = val w "Fl_I:tot:h" / uh) by reflexivity.
  assert (Eo : e (V "ht_out") = val w "blds_pwr.ht_out" / uh).
  { unfold e, vget, lin, blds_pwr_sub. cbn [sname pin sins]. unfold gname. cbn [pname app String.eqb Ascii.eqb Bool.eqb].
    assert (Q : flat_map (fun b => map (fun x => PN (b ++ ":" ++ x)%string) ["frac_W"; "frac_P"; "frac_work"]) bs =
                map PN (flat_map (fun b => map (fun x => (b ++ ":" ++ x)%string) ["frac_W"; "frac_P"; "frac_work"]) bs)).
    { rewrite <- flat_map_map. apply flat_map_ext. intros d. rewrite map_map. reflexivity. }
    rewrite Q. rewrite <- (app_nil_r (map PN _)). rewrite pname_skip_PN; [reflexivity|]. intros K. apply in_flat_map in K. destruct K as [d [_ K]]. apply in_map_iff in K. destruct K as [x [K Hx]].
    revert K. cbn in Hx. repeat destruct Hx as [<-|Hx]; try contradiction; apply neq_suffix'; reflexivity. }
  assert (EP : e (V "Pt_in") = val w "Fl_I:tot:P" / up) by reflexivity. assert (EQ : e (V "Pt_out") = val w "Fl_O:tot:P" / up) by reflexivity.
  assert (EN : e (V "Nmech") = val w "Nmech" / 1) by reflexivity.
  destruct (C29_compressor_balance bs e (fun _ => 0)) as (B1 & B2 & B3 & B4). cbv zeta in B1, B2, B3, B4. fold c in B1, B2, B3, B4.
  assert (OW : c (V "W_out") = val w "W_out" / uw) by (rewrite <- HO by (left; reflexivity); reflexivity).
  assert (OP : c (V "power") = val w "power" / ufac "hp") by (rewrite <- HO by (right; left; reflexivity); reflexivity).
  assert (OT : c (V "trq") = val w "trq" / ufac "ft*lbf") by (rewrite <- HO by (right; right; left; reflexivity); reflexivity).
  assert (Ob : forall b x u, In b bs -> In (x, u) [("stat:W", "lbm/s"); ("Pt", "psi"); ("ht", "Btu/lbm")] -> c (B b x) = val w (b ++ ":" ++ x) / ufac u).
  { intros b x u Hb Hx. rewrite <- HOb; [apply bp_out; assumption|exact Hb|]. cbn in Hx |- *. repeat destruct Hx as [Hx|Hx]; try contradiction; injection Hx as <- _; tauto. }
  split; [|split; [|split]].
  - intros b Hb. destruct (C29_bleed_states bs e (fun _ => 0) b Hb) as (S1 & S2 & _). fold c in S1, S2. specialize (B4 b Hb).
    rewrite (Ob b "stat:W" "lbm/s"), bp_in_frac, EW in B4 by (try exact Hb; inp). rewrite (Ob b "Pt" "psi"), bp_in_frac, EP, EQ in S1 by (try exact Hb; inp).
    rewrite (Ob b "ht" "Btu/lbm"), bp_in_frac, Eh, Eo in S2 by (try exact Hb; inp). fold uw uh up in B4, S1, S2.
    change (b ++ ":" ++ "stat:W")%string with (b ++ ":stat:W")%string in *. change (b ++ ":" ++ "frac_W")%string with (b ++ ":frac_W")%string in *. change (b ++ ":" ++ "frac_P")%string with (b ++ ":frac_P")%string in *.
    change (b ++ ":" ++ "frac_work")%string with (b ++ ":frac_work")%string in *. change (b ++ ":" ++ "Pt")%string with (b ++ ":Pt")%string in *. change (b ++ ":" ++ "ht")%string with (b ++ ":ht")%string in *.
    repeat split; [apply (Rmult_eq_reg_r (/ uw))|apply (Rmult_eq_reg_r (/ up))|apply (Rmult_eq_reg_r (/ uh))]; try (apply Rinv_neq_0_compat; assumption); unfold Rdiv in *; lra.
  - rewrite OW, EW in B1. rewrite (lsum_ext _ (fun b => val w (b ++ ":stat:W") / uw) bs) in B1 by (intros b Hb; apply (Ob b "stat:W" "lbm/s"); [exact Hb|inp]).
    rewrite lsum_scale in B1. apply (Rmult_eq_reg_r (/ uw)); [|apply Rinv_neq_0_compat; exact N1]. unfold Rdiv in *. lra.
  - rewrite OP, OW, EW, Eh, Eo in B2. rewrite B2. f_equal.
    rewrite (lsum_ext _ (fun b => val w (b ++ ":stat:W") * val w (b ++ ":ht") / ufac "Btu/s") bs).
    + rewrite lsum_scale. assert (U : ufac "Btu/s" = uh * uw) by (unfold uh, uw; change (u_btu = u_btu / u_lbm * u_lbm); field; unfold u_lbm; lra). rewrite U. field. split; assumption.
    + intros b Hb. rewrite (Ob b "stat:W" "lbm/s"), (Ob b "ht" "Btu/lbm") by (try exact Hb; inp). assert (U : ufac "Btu/s" = uh * uw) by (unfold uh, uw; change (u_btu = u_btu / u_lbm * u_lbm); field; unfold u_lbm; lra). rewrite U.
      change (b ++ ":" ++ "stat:W")%string with (b ++ ":stat:W")%string. change (b ++ ":" ++ "ht")%string with (b ++ ":ht")%string. unfold uh, uw. field. split; assumption.
  - intros HN. rewrite OT, OP, EN in B3. replace (val w "Nmech" / 1) with (val w "Nmech") in B3 by field. apply B3. exact HN.
Qed.
End Blds.

Theorem C48_compressor tp me mp rs bs statics design w : (forall b, In b bs -> ok_name (b ++ ":tot")) -> solves (compressor tp me mp rs bs statics design) w ->
  (* the exit: pressure ratio, and the efficiency relative to the isentropic compression to the same pressure *)
  total_ok tp me w "Fl_O:tot" /\ same w "Fl_O:tot:composition" "Fl_I:tot:composition" /\ val w "Fl_O:tot:P" = val w "PR" * val w "Fl_I:tot:P" /\
  (total_ok tp me w "ideal_flow.flow" /\ same w "ideal_flow.flow:composition" "Fl_I:tot:composition" /\ val w "ideal_flow.flow:S" = val w "Fl_I:tot:S" /\ val w "ideal_flow.flow:P" = val w "Fl_O:tot:P") /\
  (val w "eff" <> 0 -> val w "eff" * (val w "Fl_O:tot:h" - val w "Fl_I:tot:h") = val w "ideal_flow.flow:h" - val w "Fl_I:tot:h") /\
  (* every bleed leaves between inlet and exit *)
  (forall b, In b bs -> total_ok tp me w (b ++ ":tot") /\ same w (b ++ ":tot:composition") "Fl_I:tot:composition" /\
     val w (b ++ ":stat:W") = val w (b ++ ":frac_W") * val w "Fl_I:stat:W" /\
     val w (b ++ ":tot:P") - val w "Fl_I:tot:P" = val w (b ++ ":frac_P") * (val w "Fl_O:tot:P" - val w "Fl_I:tot:P") /\
     val w (b ++ ":tot:h") - val w "Fl_I:tot:h" = val w (b ++ ":frac_work") * (val w "Fl_O:tot:h" - val w "Fl_I:tot:h")) /\
  (* mass and energy *)
  val w "Fl_O:stat:W" + lsum (fun b => val w (b ++ ":stat:W")) bs = val w "Fl_I:stat:W" /\
  val w "power" / ufac "hp" = BTU_s2HP * ((val w "Fl_I:stat:W" * val w "Fl_I:tot:h" - (val w "Fl_O:stat:W" * val w "Fl_O:tot:h" + lsum (fun b => val w (b ++ ":stat:W") * val w (b ++ ":tot:h")) bs)) / ufac "Btu/s") /\
  (val w "Nmech" <> 0 -> val w "trq" / ufac "ft*lbf" * val w "Nmech" = HP_per_RPM_to_FT_LBF * (val w "power" / ufac "hp")) /\
  (statics = true -> outlet_ok tp me design w "Fl_O:tot" "Fl_O:stat" (if design then "MN" else "area")).
Proof.
  intros Hn [Hs Hc]. unfold compressor in Hs, Hc. cbn [subs conns] in Hs, Hc.
  set (cm := [PA "composition" "Fl_I:tot:composition"]) in *.
  assert (Hs' : forall s, In s (if statics then [tsub tp me "out_stat" (stat_mode design) "Fl_O:stat" [PN (if design then "MN" else "area"); PA "composition" "Fl_I:tot:composition"] [PG "Fl_O:stat:"]]
      else [pass_sub "W_passthru" "W_out" "Fl_O:stat:W"]) -> srel s (lin s w) (lout s w)) by (intros s H; apply Hs; apply in_or_app; right; apply in_or_app; right; exact H).
  assert (Hc' : forall a b, In (a, b) (if statics then stat_conns "Fl_O:tot" "out_stat" ++ [("W_out", "out_stat.W")] else []) -> forall k, w b k = w a k)
    by (intros a b H; apply Hc; apply in_or_app; right; apply in_or_app; right; exact H).
  assert (Hs1 : forall s, In s [press_rise_sub; tsub tp me "ideal_flow" total_SP "flow" [PA "S" "Fl_I:tot:S"; PA "composition" "Fl_I:tot:composition"] []; enth_rise_sub; tsub tp me "real_flow" total_hP "Fl_O:tot" cm [PG "Fl_O:tot:"]; blds_pwr_sub bs] -> srel s (lin s w) (lout s w)).
  { intros s H. apply Hs. apply in_or_app. left. cbn in H |- *. repeat destruct H as [<-|H]; try contradiction; cbn; auto 12. }
  assert (Hc1 : forall a b, In (a, b) [("press_rise.Pt_out", "ideal_flow.P"); ("ideal_flow.h", "enth_rise.ideal_ht"); ("enth_rise.ht_out", "real_flow.h"); ("press_rise.Pt_out", "real_flow.P"); ("enth_rise.ht_out", "blds_pwr.ht_out")] -> forall k, w b k = w a k)
    by (intros a b H; apply Hc; apply in_or_app; left; exact H).
  destruct (sub_hP tp me "real_flow" "Fl_O:tot" "Fl_O:tot" cm [PG "Fl_O:tot:"] w) as ((T1 & T2 & T3) & T4); [okn|shw|apply Hs1; insub|].
  destruct (sub_SP tp me "ideal_flow" "flow" "ideal_flow.flow" [PA "S" "Fl_I:tot:S"; PA "composition" "Fl_I:tot:composition"] [] w) as ((D1 & D2 & D3) & D4 & D5); [okn|shw|apply Hs1; insub|].
  pose proof (Hs1 press_rise_sub ltac:(insub) (V "Pt_out") ltac:(inp)) as HP. pose proof (Hs1 enth_rise_sub ltac:(insub) (V "ht_out") ltac:(inp)) as HE.
  destruct (bp_facts bs w (Hs1 (blds_pwr_sub bs) ltac:(insub))) as (F1 & F2 & F3 & F4).
  pose proof (fun a b H => Hc1 a b H 0%nat) as Hc0. assert (Cp := Hc0 "press_rise.Pt_out" "real_flow.P" ltac:(insub)). assert (Cq := Hc0 "press_rise.Pt_out" "ideal_flow.P" ltac:(insub)).
  assert (Ch := Hc0 "enth_rise.ht_out" "real_flow.h" ltac:(insub)). assert (Ci := Hc0 "ideal_flow.h" "enth_rise.ideal_ht" ltac:(insub)). assert (Cb := Hc0 "enth_rise.ht_out" "blds_pwr.ht_out" ltac:(insub)).
  set (up := ufac "lbf/inch**2") in *. set (uh := ufac "Btu/lbm") in *. assert (Np : up <> 0) by apply ufac_n0. assert (Nh : uh <> 0) by apply ufac_n0.
  change (w "press_rise.Pt_out" 0%nat / up = w "PR" 0%nat / 1 * (w "Fl_I:tot:P" 0%nat / up)) in HP.
  change (w "enth_rise.ht_out" 0%nat / uh = (w "enth_rise.ideal_ht" 0%nat / uh - w "Fl_I:tot:h" 0%nat / uh) / (w "eff" 0%nat / 1) + w "Fl_I:tot:h" 0%nat / uh) in HE.
  assert (PO : val w "press_rise.Pt_out" = val w "PR" * val w "Fl_I:tot:P").
  { unfold val. apply (Rmult_eq_reg_r (/ up)); [|apply Rinv_neq_0_compat; exact Np]. unfold Rdiv in HP. rewrite HP. field. exact Np. }
  assert (Po : val w "Fl_O:tot:P" = val w "press_rise.Pt_out") by (unfold val; rewrite <- Cp; apply T3).
  assert (Ho : val w "Fl_O:tot:h" = val w "enth_rise.ht_out") by (unfold val; rewrite <- Ch; exact T4).
  assert (Hb : val w "blds_pwr.ht_out" = val w "Fl_O:tot:h") by (unfold val in *; rewrite Cb; symmetry; exact Ho).
  rewrite Hb in F1, F3.
  assert (Z : val w "Fl_O:stat:W" = val w "W_out" /\ (statics = true -> outlet_ok tp me design w "Fl_O:tot" "Fl_O:stat" (if design then "MN" else "area"))).
  { destruct statics; cbn [app] in Hs', Hc'.
    - assert (O : outlet_ok tp me design w "Fl_O:tot" "Fl_O:stat" (if design then "MN" else "area") /\ val w "Fl_O:stat:W" = val w "out_stat.W") by
        (destruct design; outl tp me Hs' Hc' "out_stat" "Fl_O:tot" "Fl_O:stat" ltac:(apply same_sym, T2)).
      destruct O as [O1 O2]. split; [|auto]. rewrite O2. apply (Hc' "W_out" "out_stat.W"). insub.
    - split; [|discriminate]. apply (pass_fact w "W_passthru"). apply Hs'. insub. }
  destruct Z as [Z1 Z2]. rewrite Z1.
  assert (Bl : forall b, In b bs -> total_ok tp me w (b ++ ":tot") /\ same w (b ++ ":tot:composition") "Fl_I:tot:composition" /\ val w (b ++ ":tot:P") = val w (b ++ ":Pt") /\ val w (b ++ ":tot:h") = val w (b ++ ":ht")).
  { intros b Ib. destruct (sub_hP tp me (b ++ "_flow") (b ++ ":tot") (b ++ ":tot") cm [PG (b ++ ":tot:")%string] w) as ((A1 & A2 & A3) & A4).
    - apply Hn. exact Ib.
    - replace (b ++ ":tot:")%string with ((b ++ ":tot") ++ ":")%string by apply sapp_assoc. apply shows_glob.
    - apply Hs. apply in_or_app. right. apply in_or_app. left. apply (in_map (fun b => tsub tp me (b ++ "_flow")%string total_hP (b ++ ":tot")%string cm [PG (b ++ ":tot:")%string])). exact Ib.
    - assert (At : forall x, at_ (b ++ ":tot") x = (b ++ ":tot:" ++ x)%string) by (intros; unfold at_; rewrite sapp_assoc; reflexivity).
      rewrite At in A2, A3, A4. split; [exact A1|]. split; [exact A2|].
      assert (Q : forall a d, In (a, d) [((b ++ ":ht")%string, (b ++ "_flow.h")%string); ((b ++ ":Pt")%string, (b ++ "_flow.P")%string)] -> w d 0%nat = w a 0%nat).
      { intros a d H. apply Hc. apply in_or_app. right. apply in_or_app. left. apply in_flat_map. exists b. split; [exact Ib|exact H]. }
      assert (G : forall x, In x ["h"; "P"] -> gname (b ++ "_flow") cm x = (b ++ "_flow." ++ x)%string) by (intros x Hx; cbn in Hx; repeat destruct Hx as [<-|Hx]; try contradiction; unfold gname, cm; cbn [pname String.eqb Ascii.eqb Bool.eqb]; rewrite sapp_assoc; reflexivity).
      rewrite G in A3, A4 by inp. change (b ++ "_flow." ++ "P")%string with (b ++ "_flow.P")%string in A3. change (b ++ "_flow." ++ "h")%string with (b ++ "_flow.h")%string in A4. unfold val.
      split; [change (b ++ ":tot:P")%string with (b ++ ":tot:" ++ "P")%string; rewrite (A3 0%nat); apply Q; right; left; reflexivity|change (b ++ ":tot:h")%string with (b ++ ":tot:" ++ "h")%string; rewrite A4; apply Q; left; reflexivity]. }
  split; [exact T1|]. split; [exact T2|]. split; [rewrite Po; exact PO|].
  split; [split; [exact D1|split; [exact D2|split; [exact D4|]]]; rewrite Po; unfold val; change "ideal_flow.flow:P" with (at_ "ideal_flow.flow" "P"); rewrite (D3 0%nat); exact Cq|].
  split; [|split; [|split; [exact F2|split; [|split; [exact F4|exact Z2]]]]].
  - intros Ne. rewrite Ho. unfold val in *. change "ideal_flow.flow:h" with (at_ "ideal_flow.flow" "h"). rewrite <- (D5 0%nat). change (gname "ideal_flow" [] "h") with "ideal_flow.h". rewrite <- Ci.
    replace (w "enth_rise.ht_out" 0%nat) with (w "enth_rise.ht_out" 0%nat / uh * uh) by (field; exact Nh). rewrite HE. field. split; assumption.
  - intros b Ib. destruct (F1 b Ib) as (G1 & G2 & G3). destruct (Bl b Ib) as (A1 & A2 & A3 & A4). rewrite A3, A4. auto 8.
  - rewrite F3. do 4 f_equal. apply lsum_ext. intros b Ib. destruct (Bl b Ib) as (_ & _ & _ & ->). reflexivity.
Qed.
Print Assumptions C48_compressor.
