(* Claim C71: what the viewers print, continued: bleeds, mixers, shafts and plots. *)
From Coq Require Import Lia Classical.
From Verif Require Import Lib_R Lib_Loop Spec_Wire Model_Thermo Proofs_Wire Prop_Static Prop_Thermo Model_Turbo Model_Nozzle Model_Elem1 Model_Elem2 Proofs_Elem Proofs_Elem2 Proofs_Elem3
  Prop_Station Prop_Station3 Prop_Station4 Prop_Station5 Prop_Station6 Prop_Station7 Prop_Station8 Prop_Map Model_Viewers Prop_Viewers.
Open Scope string_scope. Open Scope list_scope. Open Scope R_scope.

(* ---------- print_bleed ---------- *)
Lemma bp_pin bs b x : In b bs -> In x ["frac_W"; "frac_P"; "frac_work"] -> gname "blds_pwr" (pin (blds_pwr_sub bs)) (b ++ ":" ++ x) = (b ++ ":" ++ x)%string.
Proof.
  intros Hb Hx. unfold blds_pwr_sub. cbn [pin].
  assert (G : gname "blds_pwr" ([PN "Nmech"; PA "W_in" "Fl_I:stat:W"; PA "ht_in" "Fl_I:tot:h"; PA "Pt_in" "Fl_I:tot:P"; PA "Pt_out" "Fl_O:tot:P"] ++
     flat_map (fun b => map (fun x => PN (b ++ ":" ++ x)%string) ["frac_W"; "frac_P"; "frac_work"]) bs) (b ++ ":" ++ x) = (b ++ ":" ++ x)%string).
  { unfold gname. cbn [pname app]. rewrite !(String.eqb_sym (b ++ ":" ++ x)).
    rewrite !(eqb_suffix b (":" ++ x)) by (cbn in Hx; repeat destruct Hx as [<-|Hx]; try contradiction; reflexivity).
    assert (Q : flat_map (fun b => map (fun x => PN (b ++ ":" ++ x)%string) ["frac_W"; "frac_P"; "frac_work"]) bs =
                map PN (flat_map (fun b => map (fun x => (b ++ ":" ++ x)%string) ["frac_W"; "frac_P"; "frac_work"]) bs)).
    { rewrite <- flat_map_map. apply flat_map_ext. intros c. rewrite map_map. reflexivity. }
    rewrite Q. rewrite <- (app_nil_r (map PN _)). rewrite pname_in_PN; [reflexivity|]. apply in_flat_map. exists b. split; [exact Hb|]. apply (in_map (fun x => (b ++ ":" ++ x)%string)). exact Hx. }
  exact G.
Qed.
Lemma bp_pout bs b : In b bs -> In (b ++ ":stat:W")%string (out_names (blds_pwr_sub bs)).
Proof.
  intros Hb. unfold out_names. apply in_map_iff. exists (b ++ ":" ++ "stat:W")%string. split.
  - unfold blds_pwr_sub. cbn [sname pout]. apply (bp_out_gname bs b "stat:W" Hb). left. reflexivity.
  - unfold names, blds_pwr_sub. cbn [souts]. rewrite map_app. apply in_or_app. right. apply in_map_iff. exists ((b ++ ":stat:W")%string, ("lbm/s", "")). split; [reflexivity|].
    apply in_flat_map. exists b. split; [exact Hb|]. left. reflexivity.
Qed.
Definition bleed_columns (w : state) (b : string) (f : string -> R) : Prop :=
  f "W" = f "Wb/Win" * val w "Fl_I:stat:W" /\ f "Tt" = val w (b ++ ":tot:T") /\ f "ht" = val w (b ++ ":tot:h") /\ f "Pt" = val w (b ++ ":tot:P") /\
  f "Pt" - val w "Fl_I:tot:P" = f "Pfrac" * (val w "Fl_O:tot:P" - val w "Fl_I:tot:P") /\ f "ht" - val w "Fl_I:tot:h" = f "Workfrac" * (val w "Fl_O:tot:h" - val w "Fl_I:tot:h").
Theorem C71_compressor_bleeds tp me mp rs bs statics design ps w b : (forall b, In b bs -> ok_name (b ++ ":tot")) -> In b bs ->
  params_ok (compressor tp me mp rs bs statics design) ps -> solves (compressor tp me mp rs bs statics design) w ->
  exists f, prints_bleed (compressor_scope tp me mp rs bs statics design ps) w b f /\ bleed_columns w b f.
Proof.
  intros Ho Hb Hp Hw. destruct (C48_compressor tp me mp rs bs statics design w Ho Hw) as (_ & _ & _ & _ & _ & K & _).
  destruct (K b Hb) as (_ & _ & E1 & E2 & E3).
  assert (HB : In (blds_pwr_sub bs) (subs (compressor tp me mp rs bs statics design))) by (unfold compressor; cbn [subs]; apply in_or_app; left; do 8 right; left; reflexivity).
  assert (HF : In (tsub tp me (b ++ "_flow")%string total_hP (b ++ ":tot")%string [PA "composition" "Fl_I:tot:composition"] [PG (b ++ ":tot:")%string]) (subs (compressor tp me mp rs bs statics design))).
  { unfold compressor; cbn [subs]. apply in_or_app; right. apply in_or_app; left. apply in_map_iff. exists b. auto. }
  exists (fun l => if String.eqb l "Wb/Win" then val w (b ++ ":frac_W") else if String.eqb l "Pfrac" then val w (b ++ ":frac_P") else if String.eqb l "Workfrac" then val w (b ++ ":frac_work") else
     if String.eqb l "W" then val w (b ++ ":stat:W") else if String.eqb l "Tt" then val w (b ++ ":tot:T") else if String.eqb l "ht" then val w (b ++ ":tot:h") else val w (b ++ ":tot:P")).
  assert (PF : forall x, In x [":frac_W"; ":frac_P"; ":frac_work"] -> finds (compressor_scope tp me mp rs bs statics design ps) ("blds_pwr." ++ b ++ x)%string (b ++ x)%string).
  { intros x Hx. apply (find_path _ _ _ _ (blds_pwr_sub bs)); [exact HB|reflexivity|]. unfold comp_keys. apply in_or_app. left. apply in_map_iff. exists (b ++ x)%string.
    assert (E : gname "blds_pwr" (pin (blds_pwr_sub bs)) (b ++ x) = (b ++ x)%string).
    { cbn [In] in Hx. repeat destruct Hx as [<-|Hx]; try contradiction; [apply (bp_pin bs b "frac_W" Hb)|apply (bp_pin bs b "frac_P" Hb)|apply (bp_pin bs b "frac_work" Hb)]; clear; cbn; tauto. }
    split; [f_equal; exact E|]. unfold blds_pwr_sub. cbn [sins]. unfold names. rewrite map_app. apply in_or_app. right. apply in_map_iff. exists ((b ++ x)%string, ("", "0.0")). split; [reflexivity|].
    apply in_flat_map. exists b. split; [exact Hb|]. cbn [In] in Hx |- *. repeat destruct Hx as [<-|Hx]; try contradiction; tauto. }
  split; [split; [left|]|].
  - intros l c H. unfold bleed_first in H. cbn [In] in H. repeat (destruct H as [H|H]; [injection H as <- <-; cbn [String.eqb Ascii.eqb Bool.eqb]|]); try contradiction; apply read_at; apply PF; mem.
  - intros l c H. unfold bleed_rest in H. cbn [In] in H. repeat (destruct H as [H|H]; [injection H as <- <-; cbn [String.eqb Ascii.eqb Bool.eqb]|]); try contradiction; apply read_at.
    + apply (find_out _ _ _ _ Hp _ _ HB). apply bp_pout. exact Hb.
    + replace (b ++ ":tot:T")%string with (at_ (b ++ ":tot") "T") by (unfold at_; rewrite sapp_assoc; reflexivity). apply (find_out _ _ _ _ Hp _ _ HF). apply (tsub_out tp me _ total_hP (b ++ ":tot") (b ++ ":tot") _ _ "T"); [apply Ho; exact Hb| |cbn; tauto]. replace (b ++ ":tot:")%string with ((b ++ ":tot") ++ ":")%string by apply sapp_assoc. apply shows_glob.
    + replace (b ++ ":tot:h")%string with (at_ (b ++ ":tot") "h") by (unfold at_; rewrite sapp_assoc; reflexivity). apply (find_out _ _ _ _ Hp _ _ HF). apply (tsub_out tp me _ total_hP (b ++ ":tot") (b ++ ":tot") _ _ "h"); [apply Ho; exact Hb| |cbn; tauto]. replace (b ++ ":tot:")%string with ((b ++ ":tot") ++ ":")%string by apply sapp_assoc. apply shows_glob.
    + replace (b ++ ":tot:P")%string with (at_ (b ++ ":tot") "P") by (unfold at_; rewrite sapp_assoc; reflexivity). apply (find_out _ _ _ _ Hp _ _ HF). apply (tsub_out tp me _ total_hP (b ++ ":tot") (b ++ ":tot") _ _ "P"); [apply Ho; exact Hb| |cbn; tauto]. replace (b ++ ":tot:")%string with ((b ++ ":tot") ++ ":")%string by apply sapp_assoc. apply shows_glob.
  - unfold bleed_columns. cbn [String.eqb Ascii.eqb Bool.eqb]. auto 10.
Qed.

(* ---------- print_bleed of a stand-alone bleed ---------- *)
Theorem C71_bleed_out tp me bs statics design ps w b : (forall b, In b bs -> ok_name (b ++ ":tot")) -> In b bs ->
  params_ok (bleed_out tp me bs statics design) ps -> solves (bleed_out tp me bs statics design) w ->
  (* nothing in the element is called blds_pwr.<b>:frac_P, so the first attempt is refused *)
  key_error (bleed_scope tp me bs statics design ps) ("blds_pwr." ++ b ++ ":frac_P") ->
  exists f, prints_bleed (bleed_scope tp me bs statics design ps) w b f /\
    f "W" = f "Wb/Win" * val w "Fl_I:stat:W" /\ f "Tt" = val w "Fl_I:tot:T" /\ f "Pt" = val w "Fl_I:tot:P" /\ f "ht" = val w (b ++ ":tot:h") /\ f "Pfrac" = 1 /\ f "Workfrac" = 1.
Proof.
  intros Ho Hb Hp Hw Hk. destruct (C48_bleed_out tp me bs statics design w Ho Hw) as (_ & _ & _ & _ & K & _). destruct (K b Hb) as (_ & _ & E1 & E2 & E3).
  assert (HB : In (bld_calcs_sub bs) (subs (bleed_out tp me bs statics design))) by (unfold bleed_out; cbn [subs]; apply in_or_app; left; right; left; reflexivity).
  assert (HF : In (tsub tp me (b ++ "_flow")%string total_TP (b ++ ":tot")%string [PA "composition" "Fl_I:tot:composition"; PA "T" "Fl_I:tot:T"; PA "P" "Fl_I:tot:P"] [PG (b ++ ":tot:")%string]) (subs (bleed_out tp me bs statics design))).
  { unfold bleed_out; cbn [subs]. apply in_or_app; right. apply in_or_app; left. apply in_map_iff. exists b. auto. }
  exists (fun l => if String.eqb l "Wb/Win" then val w (b ++ ":frac_W") else if String.eqb l "Pfrac" then 1 else if String.eqb l "Workfrac" then 1 else
     if String.eqb l "W" then val w (b ++ ":stat:W") else if String.eqb l "Tt" then val w (b ++ ":tot:T") else if String.eqb l "ht" then val w (b ++ ":tot:h") else val w (b ++ ":tot:P")).
  split; [split; [right; split|]|].
  - exists "Pfrac", (At ("blds_pwr." ++ b ++ ":frac_P")%string). split; [left; reflexivity|]. intros v H. inversion H; subst. eapply Hk. eassumption.
  - intros l c H. unfold bleed_alone in H. cbn [In] in H. repeat (destruct H as [H|H]; [injection H as <- <-; cbn [String.eqb Ascii.eqb Bool.eqb]|]); try contradiction; try apply read_lit; apply read_at.
    apply (find_path _ _ _ _ (bld_calcs_sub bs)); [exact HB|reflexivity|]. unfold comp_keys. apply in_or_app. left. apply in_map_iff. exists (b ++ ":frac_W")%string. split.
    + f_equal. unfold bld_calcs_sub. cbn [sname pin]. unfold gname. cbn [pname]. rewrite (String.eqb_sym (b ++ ":frac_W")), (eqb_suffix b ":frac_W" "W_in") by reflexivity. rewrite suffixb_app. reflexivity.
    + unfold names, bld_calcs_sub. cbn [sins map]. right. rewrite map_map. apply in_map_iff. exists b. auto.
  - intros l c H. unfold bleed_rest in H. cbn [In] in H. repeat (destruct H as [H|H]; [injection H as <- <-; cbn [String.eqb Ascii.eqb Bool.eqb]|]); try contradiction; apply read_at.
    + apply (find_out _ _ _ _ Hp _ _ HB). unfold out_names. apply in_map_iff. exists (b ++ ":stat:W")%string. split.
      * unfold bld_calcs_sub. cbn [sname pout]. unfold gname. cbn [pname]. rewrite (String.eqb_sym (b ++ ":stat:W")), (eqb_suffix b ":stat:W" "W_out") by reflexivity.
        replace (b ++ ":stat:W")%string with ((b ++ ":") ++ "stat:W")%string by apply sapp_assoc. rewrite (pname_globs (fun b => (b ++ ":")%string) bs b "stat:W" Hb). reflexivity.
      * unfold names, bld_calcs_sub. cbn [souts map]. right. rewrite map_map. apply in_map_iff. exists b. auto.
    + replace (b ++ ":tot:T")%string with (at_ (b ++ ":tot") "T") by (unfold at_; rewrite sapp_assoc; reflexivity). apply (find_out _ _ _ _ Hp _ _ HF). apply (tsub_out tp me _ total_TP (b ++ ":tot") (b ++ ":tot") _ _ "T"); [apply Ho; exact Hb| |cbn; tauto]. replace (b ++ ":tot:")%string with ((b ++ ":tot") ++ ":")%string by apply sapp_assoc. apply shows_glob.
    + replace (b ++ ":tot:h")%string with (at_ (b ++ ":tot") "h") by (unfold at_; rewrite sapp_assoc; reflexivity). apply (find_out _ _ _ _ Hp _ _ HF). apply (tsub_out tp me _ total_TP (b ++ ":tot") (b ++ ":tot") _ _ "h"); [apply Ho; exact Hb| |cbn; tauto]. replace (b ++ ":tot:")%string with ((b ++ ":tot") ++ ":")%string by apply sapp_assoc. apply shows_glob.
    + replace (b ++ ":tot:P")%string with (at_ (b ++ ":tot") "P") by (unfold at_; rewrite sapp_assoc; reflexivity). apply (find_out _ _ _ _ Hp _ _ HF). apply (tsub_out tp me _ total_TP (b ++ ":tot") (b ++ ":tot") _ _ "P"); [apply Ho; exact Hb| |cbn; tauto]. replace (b ++ ":tot:")%string with ((b ++ ":tot") ++ ":")%string by apply sapp_assoc. apply shows_glob.
  - cbn [String.eqb Ascii.eqb Bool.eqb]. auto 10.
Qed.

(* ---------- print_mixer ---------- *)
Definition mixer_columns (w : state) (f : string -> R) : Prop :=
  f "ER" * val w "Fl_I2:tot:P" = val w "Fl_I1:tot:P" /\
  f "Fl_calc:stat:P" = val w "Fl_I1_calc:stat:P" /\ f "Fl_calc:stat:area" = val w "Fl_I1_calc:stat:area" /\ f "Fl_calc:stat:MN" = val w "Fl_I1_calc:stat:MN" /\ f "designed_stream" = 1.
Theorem C71_mixer tp me a design ps w : flow_adder a ["mix"] -> params_ok (mixer tp me a true design) ps -> solves (mixer tp me a true design) w -> val w "Fl_I2:tot:P" <> 0 ->
  exists f, prints (mixer_scope tp me a true design ps) w (mixer_row true) f /\ mixer_columns w f.
Proof.
  intros Ha Hp Hw N. destruct (C48_mixer tp me a true design w Ha Hw) as (_ & _ & _ & _ & _ & ER & _).
  exists (fun l => if String.eqb l "designed_stream" then 1 else if String.eqb l "balance.P_tot" then val w "balance.P_tot" else if String.eqb l "ER" then val w "ER" else val w ("Fl_I1_calc" ++ substring 7 100 l)). split.
  - assert (S : forall x, In x ["P"; "area"; "MN"] -> finds (mixer_scope tp me a true design ps) (at_ "Fl_I1_calc:stat" x) (at_ "Fl_I1_calc:stat" x)).
    { intros x Hx. destruct design.
      - apply (find_out _ _ _ _ Hp (tsub tp me "Fl_I1_stat_calc" static_Ps "Fl_I1_calc:stat" ([PA "composition" "Fl_I1:tot:composition"; PA "S" "Fl_I1:tot:S"; PA "ht" "Fl_I1:tot:h"; PA "W" "Fl_I1:stat:W"] ++ [PA "Ps" "Fl_I2:stat:P"]) [PG "Fl_I1_calc:stat"]));
          [unfold mixer; cbn [subs]; apply in_or_app; right; apply in_or_app; left; left; reflexivity|].
        apply tsub_out; [okn|shw|]. clear -Hx. cbn [In] in Hx. repeat destruct Hx as [<-|Hx]; try contradiction; cbn; tauto.
      - apply (find_out _ _ _ _ Hp (tsub tp me "Fl_I1_stat_calc" static_A "Fl_I1_calc:stat" ([PA "composition" "Fl_I1:tot:composition"; PA "S" "Fl_I1:tot:S"; PA "ht" "Fl_I1:tot:h"; PA "W" "Fl_I1:stat:W"] ++ [PA "guess:Pt" "Fl_I1:tot:P"; PA "guess:gamt" "Fl_I1:tot:gamma"]) [PG "Fl_I1_calc:stat"]));
          [unfold mixer; cbn [subs]; apply in_or_app; right; apply in_or_app; left; left; reflexivity|].
        apply tsub_out; [okn|shw|]. clear -Hx. cbn [In] in Hx. repeat destruct Hx as [<-|Hx]; try contradiction; cbn; tauto. }
    intros l c H. unfold mixer_row in H. cbn [In] in H. repeat (destruct H as [H|H]; [injection H as <- <-; cbn [String.eqb Ascii.eqb Bool.eqb]|]); try contradiction.
    + apply read_at. apply (find_out _ _ _ _ Hp (group_sub "impulse_converge" (mix_conv tp me) [PG ""] [PG ""])); [unfold mixer; cbn [subs]; do 2 (apply in_or_app; right); do 3 right; left; reflexivity|].
      unfold out_names. apply in_map_iff. exists "balance.P_tot". split; [reflexivity|]. unfold names, group_sub, plain. cbn [souts]. rewrite map_map. cbn [fst]. rewrite map_id. unfold g_outs, mix_conv. cbn [subs]. apply in_flat_map.
      exists (bal_sub "balance" [mkBal "P_tot" "psi" "N" "lhs:P_tot" "rhs:P_tot"] [] []). split; [do 3 right; left; reflexivity|left; reflexivity].
    + apply read_lit.
    + apply read_at. apply (S "P"); mem.
    + apply read_at. apply (S "area"); mem.
    + apply read_at. apply (S "MN"); mem.
    + apply read_at. apply (find_out _ _ _ _ Hp er_sub); [unfold mixer; cbn [subs]; do 2 (apply in_or_app; right); left; reflexivity|mem].
  - unfold mixer_columns. cbn [String.eqb Ascii.eqb Bool.eqb substring append]. split; [|auto]. rewrite ER. field. exact N.
Qed.
(* with the secondary stream designed, the viewer asks the problem for a tuple: it raises, whatever the mixer *)
Theorem C71_mixer_second_refuted sc w : raises sc w (mixer_row false).
Proof. exists "ER", (Tuple "ER"). split; [cbn; tauto|]. intros v H. inversion H. Qed.

(* ---------- print_shaft ---------- *)
(* every column can be read, even when Nmech was promoted on to the top as a cycle parameter *)
Theorem C71_shaft n ps w : prints (shaft_scope n ps) w shaft_row (fun l => val w (if String.eqb l "trqin" then "trq_in" else if String.eqb l "trqout" then "trq_out" else if String.eqb l "pwrin" then "pwr_in" else if String.eqb l "pwrout" then "pwr_out" else "Nmech")).
Proof.
  intros l c H. unfold shaft_row in H. cbn [In] in H. repeat (destruct H as [H|H]; [injection H as <- <-; cbn [String.eqb Ascii.eqb Bool.eqb]|]); try contradiction; apply read_at; apply by_path; cbn [shaft_scope components]; apply in_map_iff.
  - exists (V "Nmech"). split; [reflexivity|]. apply in_or_app. left. cbn. tauto.
  - exists (V "trq_in"). split; [reflexivity|]. apply in_or_app. right. cbn. tauto.
  - exists (V "trq_out"). split; [reflexivity|]. apply in_or_app. right. cbn. tauto.
  - exists (V "pwr_in"). split; [reflexivity|]. apply in_or_app. right. cbn. tauto.
  - exists (V "pwr_out"). split; [reflexivity|]. apply in_or_app. right. cbn. tauto.
Qed.

(* ---------- plot_compressor_maps, plot_turbine_maps ---------- *)
Lemma not_found sc k : memb k (promoted sc) = false -> memb k (map fst (components sc)) = false -> key_error sc k.
Proof.
  intros H1 H2 n F. inversion F as [F1 F2|m F1]; subst.
  - apply memb_in in F1. congruence.
  - apply (in_map fst) in F1. cbn [fst] in F1. apply memb_in in F1. congruence.
Qed.
(* at the design point the marker is drawn on the scaled map: it is the image, under the scalars that scale the drawn curves, of a point of the map *)
Theorem C71_plot_compressor tp me mp rs bs statics ps w : params_ok (compressor tp me mp rs bs statics true) ps -> solves (compressor tp me mp rs bs statics true) w ->
  exists f, prints (compressor_scope tp me mp rs bs statics true ps) w (plot_row "Wc" "Nc") f /\
    (val w "map.NcMap" <> 0 -> val w "map.PRmap" <> 1 -> val w "map.effMap" <> 0 -> val w "map.WcMap" <> 0 ->
     exists alpha n r pr eff wc, on_cmap mp alpha n r pr eff wc /\ f "x" / ufac "lbm/s" = wc * f "s_x" /\ f "y" = (pr - 1) * f "s_PR" + 1).
Proof.
  intros Hp Hw. assert (Hs := proj1 Hw). unfold compressor in Hs. cbn [subs] in Hs.
  set (M := group_sub "map" (compressor_map mp rs true) (c_map_pin true) (c_map_pout true)) in *.
  assert (HM : In M (subs (compressor tp me mp rs bs statics true))) by (unfold compressor; cbn [subs]; apply in_or_app; left; do 2 right; left; reflexivity).
  destruct (cmap_open mp rs true w (Hs M ltac:(apply in_or_app; left; do 2 right; left; reflexivity))) as (v & Hv & Ev & Em).
  exists (fun l => if String.eqb l "s_x" then val w "s_Wc" else if String.eqb l "s_PR" then val w "s_PR" else if String.eqb l "s_eff" then val w "s_eff" else if String.eqb l "s_n" then val w "s_Nc" else if String.eqb l "x" then val w "Wc" else val w "PR"). split.
  - assert (OutM : forall k, In k ["s_Wc"; "s_PR"; "s_eff"; "s_Nc"] -> finds (compressor_scope tp me mp rs bs statics true ps) k k).
    { intros k Hk. apply (find_out _ _ _ _ Hp M); [exact HM|]. apply memb_in. clear -Hk. subst M. cbn [In] in Hk. repeat destruct Hk as [<-|Hk]; try contradiction; vm_compute; reflexivity. }
    intros l c H. unfold plot_row in H. cbn [In] in H. repeat (destruct H as [H|H]; [injection H as <- <-; cbn [String.eqb Ascii.eqb Bool.eqb]|]); try contradiction; apply read_at.
    + apply (OutM "s_Wc"). mem.
    + apply (OutM "s_PR"). mem.
    + apply (OutM "s_eff"). mem.
    + apply (OutM "s_Nc"). mem.
    + apply (find_out _ _ _ _ Hp c_corr_sub); [unfold compressor; cbn [subs]; apply in_or_app; left; right; left; reflexivity|]. cbn. tauto.
    + apply (find_inner _ _ _ _ (M, compressor_map mp rs true)); [left; reflexivity|]. subst M. clear. right; right; right; right; right; right. cbn. tauto.
  - cbn [String.eqb Ascii.eqb Bool.eqb]. intros N1 N2 N3 N4.
    change (val w ("map." ++ "NcMap") <> 0) in N1. change (val w ("map." ++ "PRmap") <> 1) in N2. change (val w ("map." ++ "effMap") <> 0) in N3. change (val w ("map." ++ "WcMap") <> 0) in N4.
    rewrite <- (Em "NcMap") in N1 by mem. rewrite <- (Em "PRmap") in N2 by mem. rewrite <- (Em "effMap") in N3 by mem. rewrite <- (Em "WcMap") in N4 by mem.
    destruct (scaled_point mp rs true v Hv ltac:(auto)) as [S1 S2]. rewrite (Ev "PR"), (Ev "s_PR") in S1 by mem. unfold inu in S2. rewrite (Ev "s_Wc") in S2 by mem.
    exists (val v "alphaMap"), (inu "rpm" v "NcMap"), (val v "RlineMap"), (val v "PRmap"), (val v "effMap"), (inu "lbm/s" v "WcMap"). split; [exact (cmap_point mp rs true v Hv)|].
    rewrite <- (Ev "Wc") by mem. unfold inu, val in *. split; [rewrite S2; ring|lra].
Qed.
Theorem C71_plot_turbine tp me mp a bs statics ps w : params_ok (turbine tp me mp a bs statics true) ps -> solves (turbine tp me mp a bs statics true) w ->
  exists f, prints (turbine_scope tp me mp a bs statics true ps) w (plot_row "Wp" "Np") f /\
    (val w "map.NpMap" <> 0 -> val w "map.PRmap" <> 1 -> val w "map.effMap" <> 0 -> val w "map.WpMap" <> 0 ->
     exists alpha n pr eff wp, on_tmap mp alpha n pr eff wp /\ f "x" / ufac "lbm/s" = wp * f "s_x" /\ f "y" = (pr - 1) * f "s_PR" + 1).
Proof.
  intros Hp Hw. assert (Hs := proj1 Hw).
  set (M := group_sub "map" (turbine_map mp true) (t_map_pin true) (t_map_pout true)) in *.
  assert (HM : In M (subs (turbine tp me mp a bs statics true))) by (unfold turbine; cbn [subs]; apply in_or_app; left; do 2 right; left; reflexivity).
  destruct (tmap_open mp true w (Hs M HM)) as (v & Hv & Ev & Em).
  exists (fun l => if String.eqb l "s_x" then val w "s_Wp" else if String.eqb l "s_PR" then val w "s_PR" else if String.eqb l "s_eff" then val w "s_eff" else if String.eqb l "s_n" then val w "s_Np" else if String.eqb l "x" then val w "Wp" else val w "PR"). split.
  - assert (OutM : forall k, In k ["s_Wp"; "s_PR"; "s_eff"; "s_Np"] -> finds (turbine_scope tp me mp a bs statics true ps) k k).
    { intros k Hk. apply (find_out _ _ _ _ Hp M); [exact HM|]. apply memb_in. clear -Hk. subst M. cbn [In] in Hk. repeat destruct Hk as [<-|Hk]; try contradiction; vm_compute; reflexivity. }
    intros l c H. unfold plot_row in H. cbn [In] in H. repeat (destruct H as [H|H]; [injection H as <- <-; cbn [String.eqb Ascii.eqb Bool.eqb]|]); try contradiction; apply read_at.
    + apply (OutM "s_Wp"). mem.
    + apply (OutM "s_PR"). mem.
    + apply (OutM "s_eff"). mem.
    + apply (OutM "s_Np"). mem.
    + apply (find_out _ _ _ _ Hp t_corr_sub); [unfold turbine; cbn [subs]; apply in_or_app; left; right; left; reflexivity|]. cbn. tauto.
    + apply (find_inner _ _ _ _ (M, turbine_map mp true)); [left; reflexivity|]. subst M. clear. cbn. tauto.
  - cbn [String.eqb Ascii.eqb Bool.eqb]. intros N1 N2 N3 N4.
    change (val w ("map." ++ "NpMap") <> 0) in N1. change (val w ("map." ++ "PRmap") <> 1) in N2. change (val w ("map." ++ "effMap") <> 0) in N3. change (val w ("map." ++ "WpMap") <> 0) in N4.
    rewrite <- (Em "NpMap") in N1 by mem. rewrite <- (Em "PRmap") in N2 by mem. rewrite <- (Em "effMap") in N3 by mem. rewrite <- (Em "WpMap") in N4 by mem.
    destruct (C53_turbine_design mp v Hv) as (_ & P2). destruct (P2 N1 N2 N3 N4) as (n0 & p0 & e0 & w0 & P & _ & S1 & _ & S2). rewrite (Ev "PR"), (Ev "s_PR") in S1 by mem. unfold inu in S2. rewrite (Ev "s_Wp") in S2 by mem.
    exists (val v "alphaMap"), n0, p0, e0, w0. split; [exact P|]. rewrite <- (Ev "Wp") by mem. unfold val in *. split; [rewrite S2; ring|lra].
Qed.
(* off design there is no component called scalars: the plot raises *)
Theorem C71_plot_offdesign_refuted tp me mp rs statics ps w : raises (compressor_scope tp me mp rs [] statics false ps) w (plot_row "Wc" "Nc").
Proof.
  exists "y", (At "map.scalars.PR"). split; [cbn; tauto|]. intros x H. inversion H; subst.
  match goal with F : finds _ _ _ |- _ => revert F end. apply not_found; destruct me, statics; vm_compute; reflexivity.
Qed.
(* without statics a station has no static pressure: the flow station table raises *)
Theorem C71_flow_station_totals_refuted tp me mp rs design ps w : raises (compressor_scope tp me mp rs [] false design ps) w (station_row "Fl_O").
Proof.
  exists "stat:P", (At "Fl_O:stat:P"). split; [cbn; tauto|]. intros x H. inversion H; subst.
  match goal with F : finds _ _ _ |- _ => revert F end. apply not_found; destruct me, design; vm_compute; reflexivity.
Qed.
(* the hypothesis of C71_bleed_out is met: nothing in a stand-alone bleed is called blds_pwr *)
Theorem C71_bleed_out_key tp me statics design ps : key_error (bleed_scope tp me ["bypBld"; "sbv"] statics design ps) ("blds_pwr." ++ "sbv" ++ ":frac_P").
Proof. apply not_found; destruct me, statics, design; vm_compute; reflexivity. Qed.
