(* Claim C71: what the viewers print, continued: flow stations and bleeds. *)
From Coq Require Import Lia Classical.
From Verif Require Import Lib_R Lib_Loop Spec_Wire Model_Thermo Proofs_Wire Prop_Static Prop_Thermo Model_Turbo Model_Nozzle Model_Elem1 Model_Elem2 Proofs_Elem Proofs_Elem2 Proofs_Elem3
  Prop_Station Prop_Station3 Prop_Station4 Prop_Station5 Prop_Station6 Prop_Station7 Prop_Station8 Prop_Map Model_Viewers Prop_Viewers.
Open Scope string_scope. Open Scope list_scope. Open Scope R_scope.

(* ---------- print_flow_station ---------- *)
Lemma station_printed fl fl' g leaves inner ps w tp me nmt mt pit pot ns ms pis pos : In (fl, fl') [("Fl_O:tot", "Fl_O:stat"); ("Fl_O1:tot", "Fl_O1:stat"); ("Fl_O2:tot", "Fl_O2:stat")] -> params_ok g ps ->
  In (tsub tp me nmt mt fl pit pot) (subs g) -> In (tsub tp me ns ms fl' pis pos) (subs g) ->
  In mt [total_TP; total_hP; total_SP] -> In ms [static_MN; static_A; static_Ps] ->
  shows nmt pot fl fl -> shows ns pos fl' fl' ->
  forall n, In (fl, n) [("Fl_O:tot", "Fl_O"); ("Fl_O1:tot", "Fl_O1"); ("Fl_O2:tot", "Fl_O2")] -> prints (scope_of g leaves inner ps) w (station_row n) (fun x => val w (n ++ ":" ++ x)).
Proof.
  intros Hfl Hp Ht Hs Hmt Hms S1 S2 n Hn l c H. unfold station_row in H. apply in_map_iff in H. destruct H as (x & E & H). injection E as <- <-. apply read_at.
  assert (O1 : ok_name fl) by (clear -Hfl; cbn [In] in Hfl; repeat destruct Hfl as [Hfl|Hfl]; try contradiction; injection Hfl as <- _; okn).
  assert (O2 : ok_name fl') by (clear -Hfl; cbn [In] in Hfl; repeat destruct Hfl as [Hfl|Hfl]; try contradiction; injection Hfl as _ <-; okn).
  assert (T : forall x, In x ["P"; "T"; "h"; "S"] -> finds (scope_of g leaves inner ps) (at_ fl x) (at_ fl x)).
  { intros y Hy. apply (find_out _ _ _ _ Hp _ _ Ht). apply tsub_out; [exact O1|exact S1|]. clear -Hy Hmt. cbn [In] in Hmt, Hy. repeat destruct Hmt as [<-|Hmt]; try contradiction; repeat destruct Hy as [<-|Hy]; try contradiction; cbn; tauto. }
  assert (U : forall x, In x ["P"; "W"; "MN"; "V"; "area"] -> finds (scope_of g leaves inner ps) (at_ fl' x) (at_ fl' x)).
  { intros y Hy. apply (find_out _ _ _ _ Hp _ _ Hs). apply tsub_out; [exact O2|exact S2|]. clear -Hy Hms. cbn [In] in Hms, Hy. repeat destruct Hms as [<-|Hms]; try contradiction; repeat destruct Hy as [<-|Hy]; try contradiction; cbn; tauto. }
  clear Ht Hs S1 S2 Hp Hmt Hms O1 O2. cbn [In] in H, Hfl, Hn.
  repeat destruct Hfl as [Hfl|Hfl]; try contradiction; injection Hfl as <- <-; (destruct Hn as [Hn|[Hn|[Hn|[]]]]; try discriminate Hn; injection Hn as <-);
    (repeat destruct H as [<-|H]; try contradiction); first [apply (T "P"); mem|apply (T "T"); mem|apply (T "h"); mem|apply (T "S"); mem|apply (U "P"); mem|apply (U "W"); mem|apply (U "MN"); mem|apply (U "V"); mem|apply (U "area"); mem].
Qed.
(* the nine columns of the flow station table can be read at every outlet with statics, and show the station's own state *)
Theorem C71_flow_station tp me design ps w :
  (forall leaves inner, params_ok (inlet tp me true design) ps -> prints (scope_of (inlet tp me true design) leaves inner ps) w (station_row "Fl_O") (fun x => val w ("Fl_O:" ++ x))) /\
  (forall leaves inner with_MN ex, params_ok (duct tp me true design with_MN ex) ps -> prints (scope_of (duct tp me true design with_MN ex) leaves inner ps) w (station_row "Fl_O") (fun x => val w ("Fl_O:" ++ x))) /\
  (forall leaves inner, params_ok (splitter tp me true design) ps -> forall n, In n ["Fl_O1"; "Fl_O2"] -> prints (scope_of (splitter tp me true design) leaves inner ps) w (station_row n) (fun x => val w (n ++ ":" ++ x))) /\
  (forall leaves inner bs, params_ok (bleed_out tp me bs true design) ps -> prints (scope_of (bleed_out tp me bs true design) leaves inner ps) w (station_row "Fl_O") (fun x => val w ("Fl_O:" ++ x))) /\
  (forall leaves inner a, params_ok (combustor tp me a true design) ps -> prints (scope_of (combustor tp me a true design) leaves inner ps) w (station_row "Fl_O") (fun x => val w ("Fl_O:" ++ x))) /\
  (forall leaves inner mp rs bs, params_ok (compressor tp me mp rs bs true design) ps -> prints (scope_of (compressor tp me mp rs bs true design) leaves inner ps) w (station_row "Fl_O") (fun x => val w ("Fl_O:" ++ x))) /\
  (forall leaves inner mp a bs, params_ok (turbine tp me mp a bs true design) ps -> prints (scope_of (turbine tp me mp a bs true design) leaves inner ps) w (station_row "Fl_O") (fun x => val w ("Fl_O:" ++ x))).
Proof.
  assert (SM : In (stat_mode design) [static_MN; static_A; static_Ps]) by (destruct design; cbn; tauto).
  split; [|split; [|split; [|split; [|split; [|split]]]]].
  - intros leaves inner Hp.
    apply (station_printed "Fl_O:tot" "Fl_O:stat" _ leaves inner ps w tp me "real_flow" total_TP [PA "T" "Fl_I:tot:T"; PA "composition" "Fl_I:tot:composition"] [PG "Fl_O:"] "out_stat" (stat_mode design)
      [PA "composition" "Fl_I:tot:composition"; PA "W" "Fl_I:stat:W"; PN (if design then "MN" else "area")] [PG "Fl_O:stat:"]); [mem|exact Hp|unfold inlet; cbn [subs]; insub|unfold inlet; cbn [subs]; insub|mem|exact SM|shw|shw|mem].
  - intros leaves inner wm ex Hp.
    apply (station_printed "Fl_O:tot" "Fl_O:stat" _ leaves inner ps w tp me "real_flow" total_hP [PA "composition" "Fl_I:tot:composition"] [PG "Fl_O:"] "out_stat" (stat_mode design)
      [PA "composition" "Fl_I:tot:composition"; PA "W" "Fl_I:stat:W"; PN (if design then "MN" else "area")] [PG "Fl_O:stat:"]); [mem|exact Hp|unfold duct; cbn [subs]; destruct wm; insub|unfold duct; cbn [subs]; destruct wm; insub|mem|exact SM|shw|shw|mem].
  - intros leaves inner Hp n Hn. cbn [In] in Hn. destruct Hn as [<-|[<-|[]]].
    + apply (station_printed "Fl_O1:tot" "Fl_O1:stat" _ leaves inner ps w tp me "real_flow1" total_TP [PA "composition" "Fl_I:tot:composition"; PA "P" "Fl_I:tot:P"; PA "T" "Fl_I:tot:T"] [PG "Fl_O1:tot:"] "out1_stat" (stat_mode design)
      [PA "composition" "Fl_I:tot:composition"; if design then PA "MN" "MN1" else PA "area" "area1"] [PG "Fl_O1:stat:"]); [mem|exact Hp|unfold splitter; cbn [subs]; insub|unfold splitter; cbn [subs]; insub|mem|exact SM|shw|shw|mem].
    + apply (station_printed "Fl_O2:tot" "Fl_O2:stat" _ leaves inner ps w tp me "real_flow2" total_TP [PA "composition" "Fl_I:tot:composition"; PA "P" "Fl_I:tot:P"; PA "T" "Fl_I:tot:T"] [PG "Fl_O2:tot:"] "out2_stat" (stat_mode design)
      [PA "composition" "Fl_I:tot:composition"; if design then PA "MN" "MN2" else PA "area" "area2"] [PG "Fl_O2:stat:"]); [mem|exact Hp|unfold splitter; cbn [subs]; insub|unfold splitter; cbn [subs]; insub|mem|exact SM|shw|shw|mem].
  - intros leaves inner bs Hp.
    apply (station_printed "Fl_O:tot" "Fl_O:stat" _ leaves inner ps w tp me "real_flow" total_TP [PA "composition" "Fl_I:tot:composition"; PA "T" "Fl_I:tot:T"; PA "P" "Fl_I:tot:P"] [PG "Fl_O:"] "out_stat" (stat_mode design)
      [PA "composition" "Fl_I:tot:composition"; PN (if design then "MN" else "area")] [PG "Fl_O:stat:"]); [mem|exact Hp|unfold bleed_out; cbn [subs]; do 2 (apply in_or_app; right); insub|unfold bleed_out; cbn [subs]; do 2 (apply in_or_app; right); insub|mem|exact SM|shw|shw|mem].
  - intros leaves inner a Hp.
    apply (station_printed "Fl_O:tot" "Fl_O:stat" _ leaves inner ps w tp me "vitiated_flow" total_hP [] [PG "Fl_O:"] "out_stat" (stat_mode design)
      [PN (if design then "MN" else "area")] [PG "Fl_O:stat:"]); [mem|exact Hp|unfold combustor; cbn [subs]; insub|unfold combustor; cbn [subs]; insub|mem|exact SM|shw|shw|mem].
  - intros leaves inner mp rs bs Hp.
    apply (station_printed "Fl_O:tot" "Fl_O:stat" _ leaves inner ps w tp me "real_flow" total_hP [PA "composition" "Fl_I:tot:composition"] [PG "Fl_O:tot:"] "out_stat" (stat_mode design)
      [PN (if design then "MN" else "area"); PA "composition" "Fl_I:tot:composition"] [PG "Fl_O:stat:"]); [mem|exact Hp|unfold compressor; cbn [subs]; apply in_or_app; left; insub|unfold compressor; cbn [subs]; do 2 (apply in_or_app; right); left; reflexivity|mem|exact SM|shw|shw|mem].
  - intros leaves inner mp a bs Hp.
    apply (station_printed "Fl_O:tot" "Fl_O:stat" _ leaves inner ps w tp me "real_flow" total_hP [] [PG "Fl_O:tot:"] "out_stat" (stat_mode design)
      [PN (if design then "MN" else "area")] [PG "Fl_O:stat:"]); [mem|exact Hp|unfold turbine; cbn [subs]; do 4 (apply in_or_app; right); apply in_or_app; left; insub|unfold turbine; cbn [subs]; do 5 (apply in_or_app; right); left; reflexivity|mem|exact SM|shw|shw|mem].
Qed.

