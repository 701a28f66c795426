(* Claim C72, continued: what the closing equations of N3ref.py say about the high pressure compressor and about the overall pressure ratio. *)
From Coq Require Import ZArith QArith Qabs Qreals Lia Psatz.
From Verif Require Import Lib_R Lib_Loop Spec_Wire Model_Thermo Proofs_Wire Prop_Static Prop_Thermo Model_Turbo Model_Elem1 Model_Elem2 Proofs_Elem Proofs_Elem2 Proofs_Elem3
  Prop_Station Prop_Station3 Prop_Station4 Prop_Map Proofs_ElemEx Proofs_ElemEx2 Prop_StationEx Prop_StationEx2 Prop_Viewers Proofs_Atm Prop_Atm Model_CoreEff Prop_CoreEff Prop_CoreEff2.
Open Scope string_scope. Open Scope list_scope. Open Scope R_scope.

(* the high pressure compressor with its core size and efficiency balance, all converged (N3ref.py:158-172): the core size is taken from
   the inflow and the exit's temperature and pressure, the balance sees it and the compressor's polytropic efficiency *)
Definition core_closed (ty : engine) (tl : nat) (w : state) (CS : R) : Prop :=
  CS = core_size (val w "Fl_I:stat:W" / ufac "lbm/s") (val w "Fl_O:tot:T" / ufac "degR") (val w "Fl_O:tot:P" / ufac "psi") /\
  exists e old, e (V "CS") = CS /\ e (V "eta_p") = val w "eff_poly" /\ e (V "eta_a") = val w "eff" /\ compute (core_eff ty tl) e old (V "eta_a") = 0.
(* the polytropic efficiency of the stations: of the same small steps, isentropic over real *)
Definition poly_eff (w : state) (eta : R) : Prop :=
  let x := val w "Fl_I:tot:R" * ln (val w "Fl_O:tot:P" / val w "Fl_I:tot:P") in
  eta * (x + val w "Fl_O:tot:S" - val w "Fl_I:tot:S") = x.
Lemma val_def w x : val w x = w x 0%nat. Proof. reflexivity. Qed.
Lemma comp_poly tp me mp rs bs statics design w : (forall b, In b bs -> ok_name (b ++ ":tot")) -> solves (compressor tp me mp rs bs statics design) w -> val w "Fl_I:tot:P" <> 0 ->
  val w "Fl_I:tot:R" * ln (val w "Fl_O:tot:P" / val w "Fl_I:tot:P") + val w "Fl_O:tot:S" - val w "Fl_I:tot:S" <> 0 -> poly_eff w (val w "eff_poly").
Proof.
  intros Hb Hw NP N. destruct (C48_compressor tp me mp rs bs statics design w Hb Hw) as (_ & _ & K1 & _).
  assert (Hs := proj1 Hw). unfold compressor in Hs. cbn [subs] in Hs.
  assert (Q2 := Hs c_eff_poly_sub ltac:(apply in_or_app; left; do 7 right; left; reflexivity)).
  assert (D : forall x, x / 1 = x) by (intros; field).
  fact1 Q2 "eff_poly". intros E. set (us := ufac "Btu/(lbm*degR)") in *. assert (Nu : us <> 0) by apply ufac_n0.
  change (w "eff_poly" 0%nat / 1 = w "Fl_I:tot:R" 0%nat / us * ln (w "PR" 0%nat / 1) / (w "Fl_I:tot:R" 0%nat / us * ln (w "PR" 0%nat / 1) + w "Fl_O:tot:S" 0%nat / us - w "Fl_I:tot:S" 0%nat / us)) in E.
  rewrite !D in E. unfold poly_eff. cbv zeta. assert (P : val w "Fl_O:tot:P" / val w "Fl_I:tot:P" = val w "PR") by (rewrite K1; field; exact NP).
  rewrite P in *. unfold val in *. rewrite E. field. split; [exact Nu|exact N].
Qed.
(* converged: the polytropic efficiency between the compressor's stations is the curve's at the exit corrected flow, for every map, bleeds and relation *)
Theorem C72_core tp me mp rs bs statics design ty tl w CS : (forall b, In b bs -> ok_name (b ++ ":tot")) -> solves (compressor tp me mp rs bs statics design) w -> val w "Fl_I:tot:P" <> 0 ->
  val w "Fl_I:tot:R" * ln (val w "Fl_O:tot:P" / val w "Fl_I:tot:P") + val w "Fl_O:tot:S" - val w "Fl_I:tot:S" <> 0 ->
  core_closed ty tl w CS -> poly_eff w (core_curve ty tl CS).
Proof.
  intros Hb Hw NP N (_ & e & old & E1 & E2 & _ & E4). rewrite core_res, E1, E2 in E4. apply Rminus_diag_uniq in E4. rewrite <- E4.
  exact (comp_poly tp me mp rs bs statics design w Hb Hw NP N).
Qed.
(* without bleeds the core size is the corrected flow that leaves the compressor; bleeds make it larger *)
Theorem C72_core_exit tp me mp rs bs statics design ty tl w CS : (forall b, In b bs -> ok_name (b ++ ":tot")) -> solves (compressor tp me mp rs bs statics design) w ->
  core_closed ty tl w CS -> (forall b, In b bs -> 0 <= val w (b ++ ":frac_W")) -> 0 <= val w "Fl_I:stat:W" -> 0 < val w "Fl_O:tot:T" -> 0 < val w "Fl_O:tot:P" ->
  let exit := core_size (val w "Fl_O:stat:W" / ufac "lbm/s") (val w "Fl_O:tot:T" / ufac "degR") (val w "Fl_O:tot:P" / ufac "psi") in
  exit <= CS /\ (bs = [] -> CS = exit).
Proof.
  intros Hb Hw (E & _) F W T P. cbv zeta. destruct (C48_compressor tp me mp rs bs statics design w Hb Hw) as (_ & _ & _ & _ & _ & K2 & K3 & _).
  assert (Ul := ufac_pos "lbm/s"). assert (Ud := ufac_pos "degR"). assert (Up := ufac_pos "psi").
  assert (S : 0 <= lsum (fun b => val w (b ++ ":stat:W")) bs).
  { assert (G : forall l, (forall b, In b l -> 0 <= val w (b ++ ":stat:W")) -> 0 <= lsum (fun b => val w (b ++ ":stat:W")) l).
    { induction l as [|b l IH]; intros H; cbn; [lra|]. apply Rplus_le_le_0_compat; [apply H; left; reflexivity|apply IH; intros; apply H; right; assumption]. }
    apply G. intros b HB. destruct (K2 b HB) as (_ & _ & -> & _). apply Rmult_le_pos; [apply F; exact HB|exact W]. }
  split.
  - rewrite E. unfold core_size. apply Rmult_le_compat_r.
    + apply Rlt_le. set (t := val w "Fl_O:tot:T") in *. set (p := val w "Fl_O:tot:P") in *. set (ud := ufac "degR") in *. set (up := ufac "psi") in *.
      assert (A1 : 0 < t / ud) by (apply Rdiv_lt_0_compat; assumption). assert (A2 : 0 < p / up) by (apply Rdiv_lt_0_compat; assumption).
      apply Rdiv_lt_0_compat; [apply rpow_gt0; lra|lra].
    + unfold Rdiv. apply Rmult_le_compat_r; [left; apply Rinv_0_lt_compat; exact Ul|]. lra.
  - intros ->. cbn in K3. rewrite E. replace (val w "Fl_O:stat:W") with (val w "Fl_I:stat:W") by lra. reflexivity.
Qed.
(* two converged design points of the 'large' type below the cut: the bigger core has the more efficient compressor *)
Theorem C72_core_growth tl w1 w2 CS1 CS2 : core_closed large tl w1 CS1 -> core_closed large tl w2 CS2 -> 0 <= CS1 -> CS2 < cut -> CS1 < CS2 -> val w1 "eff_poly" < val w2 "eff_poly".
Proof.
  intros (_ & e & o & A1 & A2 & _ & A3) (_ & f & p & B1 & B2 & _ & B3) H1 H2 H3. rewrite core_res in A3, B3. cbn [core_curve] in A3, B3.
  pose proof (C72_large_increasing tl CS1 CS2 H1 H3 H2). rewrite A1, A2 in A3. rewrite B1, B2 in B3. lra.
Qed.

(* ---------- the overall pressure ratio ---------- *)
(* from the inlet to the high pressure compressor: fan, splitter, duct2, lpc, bld25, duct25, hpc (N3ref.py:40-58 and the flow connections 249-256) *)
Section chain.
Variables (tp : R -> R -> (nat -> R) -> (string -> R) -> Prop) (me : method) (mpf mpl mph : R -> R -> R -> string -> R -> Prop) (rs : R).
Definition linked (w1 : state) (a : string) (w2 : state) : Prop := val w2 "Fl_I:tot:P" = val w1 (a ++ ":tot:P").
Definition core_path (bf bl bb bh : list string) (mn : bool) (ex1 ex2 : R) (statics design : bool) (wf ws d2 wl wb d25 wh : state) : Prop :=
  solves (compressor tp me mpf rs bf statics design) wf /\ solves (splitter tp me statics design) ws /\ solves (duct tp me statics design mn ex1) d2 /\
  solves (compressor tp me mpl rs bl statics design) wl /\ solves (bleed_out tp me bb statics design) wb /\ solves (duct tp me statics design mn ex2) d25 /\
  solves (compressor tp me mph rs bh statics design) wh /\
  linked wf "Fl_O" ws /\ linked ws "Fl_O1" d2 /\ linked d2 "Fl_O" wl /\ linked wl "Fl_O" wb /\ linked wb "Fl_O" d25 /\ linked d25 "Fl_O" wh.
(* the pressure ratio that perf reports (Pt3 / Pt2, with Pt2 at the fan's inflow) is the balanced product reduced by the losses of the two ducts *)
Theorem C72_opr bf bl bb bh mn ex1 ex2 statics design wf ws d2 wl wb d25 wh :
  (forall b, In b (bf ++ bl ++ bb ++ bh) -> ok_name (b ++ ":tot")) -> core_path bf bl bb bh mn ex1 ex2 statics design wf ws d2 wl wb d25 wh -> val wf "Fl_I:tot:P" <> 0 ->
  val wh "Fl_O:tot:P" / val wf "Fl_I:tot:P" = opr_simple (val wf "PR") (val wl "PR") (val wh "PR") * ((1 - val d2 "dPqP") * (1 - val d25 "dPqP")).
Proof.
  intros Hb (Hf & Hs & H2 & Hl & Hbl & H25 & Hh & L1 & L2 & L3 & L4 & L5 & L6) N. unfold linked in *. cbn [append] in *.
  destruct (C48_compressor tp me mpf rs bf statics design wf ltac:(intros; apply Hb; rewrite !in_app_iff; tauto) Hf) as (_ & _ & Kf & _).
  destruct (C48_compressor tp me mpl rs bl statics design wl ltac:(intros; apply Hb; rewrite !in_app_iff; tauto) Hl) as (_ & _ & Kl & _).
  destruct (C48_compressor tp me mph rs bh statics design wh ltac:(intros; apply Hb; rewrite !in_app_iff; tauto) Hh) as (_ & _ & Kh & _).
  destruct (C48_duct tp me statics design mn ex1 d2 H2) as (_ & _ & K2 & _). destruct (C48_duct tp me statics design mn ex2 d25 H25) as (_ & _ & K25 & _).
  destruct (C48_splitter tp me statics design ws Hs) as (Ks & _). destruct (Ks "1" ltac:(left; reflexivity)) as (_ & _ & _ & Ks' & _).
  change (val ws "Fl_O1:tot:P" = val ws "Fl_I:tot:P") in Ks'.
  destruct (C48_bleed_out tp me bb statics design wb ltac:(intros; apply Hb; rewrite !in_app_iff; tauto) Hbl) as (_ & _ & _ & Kb & _).
  unfold opr_simple. rewrite Kh, L6, K25, L5, Kb, L4, Kl, L3, K2, L2, Ks', L1, Kf. field. exact N.
Qed.
(* so with lossy ducts the engine that meets the balance's OPR_simple reports less *)
Theorem C72_opr_loss bf bl bb bh mn ex1 ex2 statics design wf ws d2 wl wb d25 wh :
  (forall b, In b (bf ++ bl ++ bb ++ bh) -> ok_name (b ++ ":tot")) -> core_path bf bl bb bh mn ex1 ex2 statics design wf ws d2 wl wb d25 wh -> val wf "Fl_I:tot:P" <> 0 ->
  0 < opr_simple (val wf "PR") (val wl "PR") (val wh "PR") -> 0 < val d2 "dPqP" < 1 -> 0 <= val d25 "dPqP" < 1 ->
  val wh "Fl_O:tot:P" / val wf "Fl_I:tot:P" < opr_simple (val wf "PR") (val wl "PR") (val wh "PR").
Proof.
  intros Hb Hp N O D1 D2. rewrite (C72_opr _ _ _ _ _ _ _ _ _ _ _ _ _ _ _ _ Hb Hp N). set (o := opr_simple _ _ _) in *.
  assert ((1 - val d2 "dPqP") * (1 - val d25 "dPqP") < 1) by nra. nra.
Qed.
End chain.
