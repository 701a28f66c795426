(* Claim C48, continued: the nozzle. *)
From Coq Require Import FunctionalExtensionality Lia.
From Verif Require Import Lib_R Lib_Loop Spec_Wire Model_Thermo Proofs_Wire Prop_Static Prop_Thermo Model_Nozzle Prop_Elem2 Model_Elem1 Model_Elem2 Proofs_Elem Prop_Station Proofs_Elem3.
Open Scope string_scope. Open Scope list_scope. Open Scope R_scope.

(* ---- specification: an isentropic expansion of the stream `tot` (entropy of `ent`, total enthalpy of `ht`) to the station st ---- *)
Definition expanded tp me (w : state) (comp ent ht st : string) (good : Prop) : Prop :=
  station tp me (w comp) w st /\ val w (at_ st "S") = val w ent /\
  (good -> 0 < val w (at_ st "gamma") * val w (at_ st "R") * val w (at_ st "T") -> val w (at_ st "rho") <> 0 -> val w ht <> 0 -> static_ok w st (val w ht)).
(* the mass flow properties shown at `st` are those of the state `src` *)
Definition shows_state (w : state) (st src : string) : Prop := forall p, In p nozzle_props -> val w (at_ st p) = val w (at_ src p).

Lemma mux_fact nt w : srel (mux_sub nt) (lin (mux_sub nt) w) (lout (mux_sub nt) w) ->
  let m pre p := val w (gname "mux" (pin (mux_sub nt)) (pre ++ ":" ++ p)) in
  let choked := val w "Ps_calc" < val w "mux.MN:P" in
  (forall p, In p nozzle_props ->
     (nt = CV -> (choked -> val w (at_ "Throat:stat" p) = m "MN" p /\ val w (at_ "Fl_O:stat" p) = m "MN" p) /\
                 (~ choked -> val w (at_ "Throat:stat" p) = m "Ps" p /\ val w (at_ "Fl_O:stat" p) = m "Ps" p)) /\
     (nt = CD -> val w (at_ "Throat:stat" p) = m "MN" p /\ val w (at_ "Fl_O:stat" p) = m "Ps" p) /\
     (nt = CD_CV -> val w (at_ "Fl_O:stat" p) = m "Ps" p /\ (choked -> val w (at_ "Throat:stat" p) = m "MN" p) /\ (~ choked -> val w (at_ "Throat:stat" p) = m "Ps" p))) /\
  val w "Throat:stat:S" = val w "mux.S" /\ val w "Fl_O:stat:S" = val w "mux.S".
Proof.
  intros H m choked. set (e := vget (lin (mux_sub nt) w)).
  assert (Hout : forall p, In p ("S" :: nozzle_props) -> In (stat "Throat" p) (outs (mux nt "Fl_O")) /\ In (stat "Fl_O" p) (outs (mux nt "Fl_O"))).
  { intros p Hp. cbn [In nozzle_props] in Hp. repeat destruct Hp as [<-|Hp]; try contradiction; split; inp. }
  assert (O : forall p pre, In p ("S" :: nozzle_props) -> In pre ["Throat"; "Fl_O"] -> vget (lout (mux_sub nt) w) (stat pre p) = compute (mux nt "Fl_O") e (fun _ => 0) (stat pre p)).
  { intros p pre Hp Hpre. destruct (Hout p Hp) as [H1 H2]. cbn [In] in Hpre. destruct Hpre as [<-|[<-|[]]]; (apply H; [assumption|discriminate]). }
  assert (Ch : e (V "Ps_calc") < e (B "MN" "P") <-> choked).
  { change (w "Ps_calc" 0%nat / ufac "lbf/inch**2" < w "mux.MN:P" 0%nat / ufac "lbf/inch**2" <-> choked). unfold choked, val.
    assert (N := ufac_pos "lbf/inch**2"). split; intros K.
    - apply (Rmult_lt_reg_r (/ ufac "lbf/inch**2")); [apply Rinv_0_lt_compat; exact N|exact K].
    - apply (Rmult_lt_compat_r (/ ufac "lbf/inch**2")); [apply Rinv_0_lt_compat; exact N|exact K]. }
  assert (U : forall p pre out, In p nozzle_props -> In pre ["MN"; "Ps"] -> In out ["Throat"; "Fl_O"] -> vget (lout (mux_sub nt) w) (stat out p) = e (B pre p) -> val w (at_ (out ++ ":stat") p) = m pre p).
  { intros p pre out Hp Hpre Hout' E. cbn [In nozzle_props] in Hp, Hpre, Hout'.
    repeat destruct Hp as [<-|Hp]; try contradiction; repeat destruct Hpre as [<-|Hpre]; try contradiction; repeat destruct Hout' as [<-|Hout']; try contradiction; apply udiv_eq in E; exact E. }
  split.
  - intros p Hp. destruct (C37_mux_selects nt "Fl_O" p e (fun _ => 0) ltac:(discriminate) Hp) as (M1 & M2 & M3 & _).
    fold (stat "Throat" p) (stat "Fl_O" p) in M1, M2, M3. assert (Hp' : In p ("S" :: nozzle_props)) by (right; exact Hp).
    rewrite <- (O p "Throat" Hp' ltac:(inp)), <- (O p "Fl_O" Hp' ltac:(inp)) in M1. rewrite <- (O p "Throat" Hp' ltac:(inp)), <- (O p "Fl_O" Hp' ltac:(inp)) in M2. rewrite <- (O p "Throat" Hp' ltac:(inp)), <- (O p "Fl_O" Hp' ltac:(inp)) in M3.
    split; [|split].
    + intros E. destruct (M1 E) as [A1 A2]. split; intros K; [apply Ch in K; destruct (A1 K) as [B1 B2]|destruct (A2 ltac:(tauto)) as [B1 B2]]; split.
      * apply (U p "MN" "Throat" Hp ltac:(inp) ltac:(inp) B1). * apply (U p "MN" "Fl_O" Hp ltac:(inp) ltac:(inp) B2).
      * apply (U p "Ps" "Throat" Hp ltac:(inp) ltac:(inp) B1). * apply (U p "Ps" "Fl_O" Hp ltac:(inp) ltac:(inp) B2).
    + intros E. destruct (M2 E) as [A1 A2]. split; [apply (U p "MN" "Throat" Hp ltac:(inp) ltac:(inp) A1)|apply (U p "Ps" "Fl_O" Hp ltac:(inp) ltac:(inp) A2)].
    + intros E. destruct (M3 E) as (A0 & A1 & A2). split; [apply (U p "Ps" "Fl_O" Hp ltac:(inp) ltac:(inp) A0)|].
      split; intros K; [apply (U p "MN" "Throat" Hp ltac:(inp) ltac:(inp) (A1 (proj2 Ch K)))|apply (U p "Ps" "Throat" Hp ltac:(inp) ltac:(inp)); apply A2; tauto].
  - destruct (C37_mux_selects nt "Fl_O" "h" e (fun _ => 0) ltac:(discriminate) ltac:(inp)) as (_ & _ & _ & S1 & S2).
    change (B "Throat" "stat:S") with (stat "Throat" "S") in S1. change (B "Fl_O" "stat:S") with (stat "Fl_O" "S") in S2.
    rewrite <- (O "S" "Throat") in S1 by inp. rewrite <- (O "S" "Fl_O") in S2 by inp. apply udiv_eq in S1. apply udiv_eq in S2. split; [exact S1|exact S2].
Qed.

Ltac mem := clear; cbn [fixed_outs nozzle_props]; repeat (first [left; reflexivity | right]).
(* ---------- nozzle: total enthalpy and composition pass, pressure falls by dPqP; the stream expands to the exhaust pressure, or to Mach 1 where choked ---------- *)
Theorem C48_nozzle tp me nt lc w : solves (nozzle tp me nt lc) w ->
  let sonic := "staticMN.flow" in let full := "staticPs.flow" in let ideal := "ideal_flow.flow" in
  let choked := val w "Ps_exhaust" < val w (at_ sonic "P") in
  (* total state at the outlet *)
  total_ok tp me w "Fl_O:tot" /\ same w "Fl_O:tot:composition" "Fl_I:tot:composition" /\ val w "Fl_O:tot:h" = val w "Fl_I:tot:h" /\
  val w "Fl_O:tot:P" = val w "Fl_I:tot:P" * (1 - val w "dPqP") /\ (val w "PR" <> 0 -> val w "PR" * val w "Ps_exhaust" = val w "Fl_O:tot:P") /\
  (* the sonic state, the full expansion to the exhaust pressure, and the lossless expansion *)
  (expanded tp me w "Fl_I:tot:composition" "Fl_O:tot:S" "Fl_O:tot:h" sonic True /\ val w (at_ sonic "MN") = 1) /\
  (expanded tp me w "Fl_I:tot:composition" "Fl_O:tot:S" "Fl_O:tot:h" full
     (0 < val w (at_ full "gamma") /\ 0 < val w (at_ full "R") /\ 0 < val w (at_ full "T") /\ val w (at_ full "h") < val w "Fl_O:tot:h") /\ val w (at_ full "P") = val w "Ps_exhaust") /\
  (expanded tp me w "Fl_I:tot:composition" "Fl_I:tot:S" "Fl_I:tot:h" ideal
     (0 < val w (at_ ideal "gamma") /\ 0 < val w (at_ ideal "R") /\ 0 < val w (at_ ideal "T") /\ val w (at_ ideal "h") < val w "Fl_I:tot:h") /\ val w (at_ ideal "P") = val w "Ps_exhaust") /\
  (* throat and exit show one of the two states, by nozzle type *)
  (nt = CV -> (choked -> shows_state w "Throat:stat" sonic /\ shows_state w "Fl_O:stat" sonic) /\ (~ choked -> shows_state w "Throat:stat" full /\ shows_state w "Fl_O:stat" full)) /\
  (nt = CD -> shows_state w "Throat:stat" sonic /\ shows_state w "Fl_O:stat" full) /\
  (nt = CD_CV -> shows_state w "Fl_O:stat" full /\ (choked -> shows_state w "Throat:stat" sonic) /\ (~ choked -> shows_state w "Throat:stat" full)) /\
  val w "Throat:stat:S" = val w "Fl_O:tot:S" /\ val w "Fl_O:stat:S" = val w "Fl_O:tot:S" /\ val w "Fl_O:stat:W" = val w "Fl_I:stat:W" /\ val w "Throat:stat:W" = val w "Fl_I:stat:W" /\
  (* gross thrust *)
  (lc = Cfg -> val w "Fg" / ufac "lbf" = val w "Cfg" * ((val w "Fl_I:stat:W" / ufac "lbm/s") * (val w (at_ ideal "V") / ufac "ft/s") / g_c)) /\
  (lc = Cv -> val w "Fg" / ufac "lbf" =
     val w "Cv" * val w "perf_calcs.Cang" * val w "perf_calcs.CmixCorr" * ((val w "Fl_I:stat:W" / ufac "lbm/s") * (val w "Fl_O:stat:V" / ufac "ft/s") / g_c) +
     ((val w "Fl_O:stat:P" - val w "Ps_exhaust") * val w "Fl_O:stat:area") / ufac "lbf").
Proof.
  intros [Hs Hc] sonic full ideal choked. unfold nozzle in Hs, Hc. cbn [subs conns] in Hs, Hc.
  set (from := [PA "ht" "Fl_I:tot:h"; PA "W" "Fl_I:stat:W"]) in *. set (co := PA "composition" "Fl_I:tot:composition") in *.
  destruct (sub_hP tp me "throat_total" "Fl_O:tot" "Fl_O:tot" [PA "h" "Fl_I:tot:h"; co] [PG "Fl_O:"] w) as ((T1 & T2 & T3) & T4); [okn|shw|apply Hs; insub|].
  assert (HS := Hs (tsub tp me "throat_total" total_hP "Fl_O:tot" [PA "h" "Fl_I:tot:h"; co] [PG "Fl_O:"]) ltac:(insub)).
  assert (TS : same w "throat_total.S" "Fl_O:tot:S") by (apply (sub_plain tp me total_hP "throat_total" "Fl_O:tot" "Fl_O:tot" [PA "h" "Fl_I:tot:h"; co] [PG "Fl_O:"] w ltac:(okn) ltac:(shw) HS "S"); [inp|reflexivity]).
  assert (HM := Hs (tsub tp me "staticMN" static_MN "flow" (from ++ [co]) []) ltac:(insub)).
  assert (HP := Hs (tsub tp me "staticPs" static_Ps "flow" (from ++ [PA "Ps" "Ps_calc"; co]) []) ltac:(insub)).
  assert (HI := Hs (tsub tp me "ideal_flow" static_Ps "flow" ([PA "ht" "Fl_I:tot:h"; PA "S" "Fl_I:tot:S"; PA "W" "Fl_I:stat:W"] ++ [PA "Ps" "Ps_calc"; co]) []) ltac:(insub)).
  assert (HX := Hs (mux_sub nt) ltac:(insub)). assert (HF := Hs (perf_sub lc) ltac:(insub)). assert (HC := Hs press_calcs_sub ltac:(insub)). assert (HB := Hs pr_bal_sub ltac:(insub)).
  assert (H1 := Hs (indep "mach_choked" "MN" 1) ltac:(insub)).
  assert (HN : w "mach_choked.MN" 0%nat = 1) by (change (w "mach_choked.MN" 0%nat / 1 = 1) in H1; rewrite <- H1; field). clear H1 Hs.
  assert (OK : ok_name "flow") by okn.
  destruct (sub_MN tp me "staticMN" "flow" sonic (from ++ [co]) [] w OK ltac:(exact (shows_none "staticMN" "flow")) HM) as ((M1 & M2 & M3) & M4 & M5).
  destruct (sub_Ps tp me "staticPs" "flow" full (from ++ [PA "Ps" "Ps_calc"; co]) [] w OK ltac:(exact (shows_none "staticPs" "flow")) HP) as ((P1 & P2 & P3) & P4 & P5).
  destruct (sub_Ps tp me "ideal_flow" "flow" ideal ([PA "ht" "Fl_I:tot:h"; PA "S" "Fl_I:tot:S"; PA "W" "Fl_I:stat:W"] ++ [PA "Ps" "Ps_calc"; co]) [] w OK ltac:(exact (shows_none "ideal_flow" "flow")) HI) as ((I1 & I2 & I3) & I4 & I5).
  assert (PM := sub_plain tp me static_MN "staticMN" "flow" sonic (from ++ [co]) [] w OK ltac:(exact (shows_none "staticMN" "flow")) HM).
  assert (PP := sub_plain tp me static_Ps "staticPs" "flow" full (from ++ [PA "Ps" "Ps_calc"; co]) [] w OK ltac:(exact (shows_none "staticPs" "flow")) HP).
  assert (PI := sub_plain tp me static_Ps "ideal_flow" "flow" ideal ([PA "ht" "Fl_I:tot:h"; PA "S" "Fl_I:tot:S"; PA "W" "Fl_I:stat:W"] ++ [PA "Ps" "Ps_calc"; co]) [] w OK ltac:(exact (shows_none "ideal_flow" "flow")) HI "V" ltac:(inp) eq_refl).
  clear HM HP HI HS.
  set (up := ufac "lbf/inch**2"). assert (Nu : up <> 0) by apply ufac_n0.
  (* pressures *)
  assert (Eb : val w "Ps_calc" = val w "Ps_exhaust").
  { specialize (HB (V "PR") ltac:(inp)). change (w "Ps_exhaust" 0%nat / up - w "Ps_calc" 0%nat / up = 0) in HB. unfold val.
    apply (Rmult_eq_reg_r (/ up)); [|apply Rinv_neq_0_compat; exact Nu]. unfold Rdiv in HB. lra. }
  assert (Et : val w "press_calcs.Pt_th" = val w "Fl_I:tot:P" * (1 - val w "dPqP")).
  { specialize (HC (V "Pt_th") ltac:(inp)). change (w "press_calcs.Pt_th" 0%nat / up = w "Fl_I:tot:P" 0%nat / up * (1 - w "dPqP" 0%nat / 1)) in HC. unfold val.
    replace (w "press_calcs.Pt_th" 0%nat) with (w "press_calcs.Pt_th" 0%nat / up * up) by (field; exact Nu). rewrite HC. field. exact Nu. }
  assert (Ep : val w "Fl_O:tot:P" = val w "Fl_I:tot:P" * (1 - val w "dPqP")) by (rewrite <- Et; unfold val; rewrite <- (Hc "press_calcs.Pt_th" "throat_total.P") by insub; apply T3).
  assert (Er : val w "PR" <> 0 -> val w "PR" * val w "Ps_exhaust" = val w "Fl_O:tot:P").
  { intros NR. specialize (HC (V "Ps_calc") ltac:(inp)). change (w "Ps_calc" 0%nat / up = w "Fl_I:tot:P" 0%nat / up * (1 - w "dPqP" 0%nat / 1) / (w "PR" 0%nat / 1)) in HC.
    rewrite <- Eb, Ep. unfold val in *. replace (w "Ps_calc" 0%nat) with (w "Ps_calc" 0%nat / up * up) by (field; exact Nu). rewrite HC. field. auto. }
  (* stations *)
  assert (Sc : same w "Fl_I:tot:composition" "Fl_I:tot:composition") by apply same_refl.
  assert (Sm : val w (at_ sonic "S") = val w "Fl_O:tot:S") by (unfold val; rewrite <- TS, <- (Hc "throat_total.S" "staticMN.S") by insub; exact M2).
  assert (Sp : val w (at_ full "S") = val w "Fl_O:tot:S") by (unfold val; rewrite <- TS, <- (Hc "throat_total.S" "staticPs.S") by insub; exact P2).
  assert (Nm : val w (at_ sonic "MN") = 1) by (unfold val; rewrite <- HN, <- (Hc "mach_choked.MN" "staticMN.MN") by insub; apply M4).
  assert (Hh : val w "Fl_O:tot:h" = val w "Fl_I:tot:h") by exact T4.
  assert (P4' : val w (at_ full "P") = val w "Ps_exhaust") by (rewrite <- Eb; apply (P4 0%nat)).
  assert (I4' : val w (at_ ideal "P") = val w "Ps_exhaust") by (rewrite <- Eb; apply (I4 0%nat)).
  assert (XM : expanded tp me w "Fl_I:tot:composition" "Fl_O:tot:S" "Fl_O:tot:h" sonic True).
  { split; [exact M1|]. split; [exact Sm|]. intros _ G1 G2 G3. rewrite Hh in *. apply M5; [split; assumption|exact G3|].
    change (/ 10 ^ 16 <= w "staticMN.MN" 0%nat). rewrite (Hc "mach_choked.MN" "staticMN.MN") by insub. rewrite HN. rewrite <- Rinv_1. apply Rinv_le_contravar; [lra|]. apply (pow_R1_Rle 10 16). lra. }
  assert (XP : expanded tp me w "Fl_I:tot:composition" "Fl_O:tot:S" "Fl_O:tot:h" full
     (0 < val w (at_ full "gamma") /\ 0 < val w (at_ full "R") /\ 0 < val w (at_ full "T") /\ val w (at_ full "h") < val w "Fl_O:tot:h")).
  { split; [exact P1|]. split; [exact Sp|]. intros (G1 & G2 & G3 & G4) _ G5 _. rewrite Hh in *. apply P5; assumption. }
  assert (XI : expanded tp me w "Fl_I:tot:composition" "Fl_I:tot:S" "Fl_I:tot:h" ideal
     (0 < val w (at_ ideal "gamma") /\ 0 < val w (at_ ideal "R") /\ 0 < val w (at_ ideal "T") /\ val w (at_ ideal "h") < val w "Fl_I:tot:h")).
  { split; [exact I1|]. split; [exact I2|]. intros (G1 & G2 & G3 & G4) _ G5 _. apply I5; assumption. }
  (* the multiplexer's inputs *)
  destruct (mux_fact nt w HX) as (X1 & X2 & X3). cbv zeta in X1. clear HX.
  assert (Cx : forall a b, In (a, b) ([("throat_total.S", "mux.S")] ++ map (fun x => (("staticPs." ++ x)%string, ("mux.Ps:" ++ x)%string)) ["h"; "T"; "rho"; "gamma"; "Cp"; "Cv"; "V"; "Vsonic"; "MN"; "area"] ++
     map (fun x => (("staticMN." ++ x)%string, ("mux.MN:" ++ x)%string)) ["h"; "T"; "rho"; "gamma"; "Cp"; "Cv"; "V"; "Vsonic"; "area"] ++
     [("staticMN.Ps", "mux.MN:P"); ("mach_choked.MN", "mux.MN:MN"); ("ideal_flow.V", "perf_calcs.V_ideal")]) -> same w b a).
  { intros a b H k. apply Hc. apply in_app_or in H. destruct H as [[H|[]]|H]; [apply in_or_app; left; rewrite <- H; inp|]. apply in_or_app. right.
    apply in_app_or in H. apply in_or_app. destruct H as [H|H]; [left; exact H|right]. apply in_app_or in H. apply in_or_app. destruct H as [H|H]; [left; exact H|right]. apply in_or_app. left. exact H. }
  assert (EM : forall p, In p nozzle_props -> val w (gname "mux" (pin (mux_sub nt)) ("MN" ++ ":" ++ p)) = val w (at_ sonic p)).
  { intros p Hp. cbn [In nozzle_props] in Hp.
    repeat destruct Hp as [<-|Hp]; try contradiction; unfold val.
    all: try (match goal with |- _ ?l _ = _ (at_ _ ?x) _ => let y := eval vm_compute in l in change l with y; rewrite (Cx ("staticMN." ++ x)%string y) by (cbn [map app append]; insub); apply (PM x); [mem|reflexivity] end).
    - change (w "mux.MN:P" 0%nat = w (at_ sonic "P") 0%nat). rewrite (Cx "staticMN.Ps" "mux.MN:P") by (cbn [map app append]; insub). apply (PM "Ps"); [mem|reflexivity].
    - change (w "mux.MN:MN" 0%nat = w (at_ sonic "MN") 0%nat). rewrite (Cx "mach_choked.MN" "mux.MN:MN") by (cbn [map app append]; insub). rewrite HN. symmetry. exact Nm.
    - symmetry. apply (M3 0%nat). }
  assert (EP : forall p, In p nozzle_props -> val w (gname "mux" (pin (mux_sub nt)) ("Ps" ++ ":" ++ p)) = val w (at_ full p)).
  { intros p Hp. cbn [In nozzle_props] in Hp.
    repeat destruct Hp as [<-|Hp]; try contradiction; unfold val.
    all: try (match goal with |- _ ?l _ = _ (at_ _ ?x) _ => let y := eval vm_compute in l in change l with y; rewrite (Cx ("staticPs." ++ x)%string y) by (cbn [map app append]; insub); apply (PP x); [mem|reflexivity] end).
    - symmetry. apply (P4 0%nat).
    - symmetry. apply (P3 0%nat). }
  assert (Ech : val w "Ps_calc" < val w "mux.MN:P" <-> choked) by (unfold choked; rewrite <- Eb; change "mux.MN:P" with (gname "mux" (pin (mux_sub nt)) ("MN" ++ ":" ++ "P")); rewrite (EM "P") by mem; tauto).
  assert (Z1 : val w "mux.S" = val w "Fl_O:tot:S") by (unfold val; rewrite <- TS; apply (Cx "throat_total.S" "mux.S"); insub).
  assert (YV : nt = CV -> (choked -> shows_state w "Throat:stat" sonic /\ shows_state w "Fl_O:stat" sonic) /\ (~ choked -> shows_state w "Throat:stat" full /\ shows_state w "Fl_O:stat" full)).
  { intros E. split; intros K; split; intros p Hp; rewrite <- ?(EM p Hp), <- ?(EP p Hp); destruct (X1 p Hp) as (Q & _); specialize (Q E); tauto. }
  assert (YD : nt = CD -> shows_state w "Throat:stat" sonic /\ shows_state w "Fl_O:stat" full).
  { intros E. split; intros p Hp; rewrite <- ?(EM p Hp), <- ?(EP p Hp); destruct (X1 p Hp) as (_ & Q & _); specialize (Q E); tauto. }
  assert (YC : nt = CD_CV -> shows_state w "Fl_O:stat" full /\ (choked -> shows_state w "Throat:stat" sonic) /\ (~ choked -> shows_state w "Throat:stat" full)).
  { intros E. split; [|split; intros K]; intros p Hp; rewrite <- ?(EM p Hp), <- ?(EP p Hp); destruct (X1 p Hp) as (_ & _ & Q); specialize (Q E); tauto. }
  assert (Wm : val w (at_ sonic "W") = val w "Fl_I:stat:W") by apply (M3 0%nat). assert (Wp : val w (at_ full "W") = val w "Fl_I:stat:W") by apply (P3 0%nat).
  assert (WO : val w "Fl_O:stat:W" = val w "Fl_I:stat:W" /\ val w "Throat:stat:W" = val w "Fl_I:stat:W").
  { assert (IW : In "W" nozzle_props) by mem. change "Fl_O:stat:W" with (at_ "Fl_O:stat" "W"). change "Throat:stat:W" with (at_ "Throat:stat" "W"). destruct nt.
    - destruct (YV eq_refl) as [A1 A2]. destruct (Rlt_dec (val w "Ps_exhaust") (val w (at_ sonic "P"))) as [K|K]; [destruct (A1 K) as [B1 B2]|destruct (A2 K) as [B1 B2]]; rewrite (B1 "W" IW), (B2 "W" IW); auto.
    - destruct (YD eq_refl) as [B1 B2]. rewrite (B1 "W" IW), (B2 "W" IW). auto.
    - destruct (YC eq_refl) as (B2 & A1 & A2). rewrite (B2 "W" IW). destruct (Rlt_dec (val w "Ps_exhaust") (val w (at_ sonic "P"))) as [K|K]; [rewrite (A1 K "W" IW)|rewrite (A2 K "W" IW)]; auto. }
  assert (EV : val w "perf_calcs.V_ideal" = val w (at_ ideal "V")) by (unfold val; rewrite (Cx "ideal_flow.V" "perf_calcs.V_ideal") by (cbn [map app append]; insub); apply PI).
  split; [exact T1|]. split; [exact T2|]. split; [exact Hh|]. split; [exact Ep|]. split; [exact Er|]. split; [split; [exact XM|exact Nm]|]. split; [split; [exact XP|exact P4']|]. split; [split; [exact XI|exact I4']|].
  split; [exact YV|]. split; [exact YD|]. split; [exact YC|]. split; [rewrite X2; exact Z1|]. split; [rewrite X3; exact Z1|]. split; [apply WO|]. split; [apply WO|].
  split; intros ->.
  - specialize (HF (V "Fg") ltac:(inp)). rewrite <- EV.
    change (w "Fg" 0%nat / ufac "lbf" = w "Fl_I:stat:W" 0%nat / ufac "lbm/s" / g_c * (w "perf_calcs.V_ideal" 0%nat / ufac "ft/s") * (w "Cfg" 0%nat / 1)) in HF. unfold val. rewrite HF.
    assert (Nw : ufac "lbm/s" <> 0) by apply ufac_n0. assert (Nv : ufac "ft/s" <> 0) by apply ufac_n0. assert (Ng : g_c <> 0) by (unfold g_c; lra). field. repeat split; assumption.
  - specialize (HF (V "Fg") ltac:(inp)).
    change (w "Fg" 0%nat / ufac "lbf" = w "Fl_I:stat:W" 0%nat / ufac "lbm/s" / g_c * (w "perf_calcs.V_actual" 0%nat / ufac "ft/s") * (w "Cv" 0%nat / 1) * (w "perf_calcs.Cang" 0%nat / 1) * (w "perf_calcs.CmixCorr" 0%nat / 1) +
      (w "perf_calcs.Ps_actual" 0%nat / up - w "Ps_calc" 0%nat / up) * (w "perf_calcs.A_actual" 0%nat / ufac "inch**2")) in HF.
    assert (Cy : forall a b, In (a, b) [("Fl_O:stat:V", "perf_calcs.V_actual"); ("Fl_O:stat:area", "perf_calcs.A_actual"); ("Fl_O:stat:P", "perf_calcs.Ps_actual")] -> w b 0%nat = w a 0%nat).
    { intros a b H. apply Hc. do 4 (apply in_or_app; right). exact H. }
    rewrite (Cy "Fl_O:stat:V" "perf_calcs.V_actual"), (Cy "Fl_O:stat:area" "perf_calcs.A_actual"), (Cy "Fl_O:stat:P" "perf_calcs.Ps_actual") in HF by insub.
    rewrite <- Eb. unfold val. rewrite HF. assert (U : ufac "lbf" = up * ufac "inch**2") by (unfold up; change (u_lbf = u_lbf / u_inch ^ 2 * u_inch ^ 2); field; unfold u_inch; lra).
    rewrite U. assert (Na : ufac "inch**2" <> 0) by apply ufac_n0. assert (Nw : ufac "lbm/s" <> 0) by apply ufac_n0. assert (Nv : ufac "ft/s" <> 0) by apply ufac_n0. assert (Ng : g_c <> 0) by (unfold g_c; lra).
    field. repeat split; assumption.
Qed.
Print Assumptions C48_nozzle.
