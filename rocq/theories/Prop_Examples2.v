(* C67 continued: thrust and fuel flow, shaft power, targets and energy of the shipped engines. *)
From Coq Require Import Permutation Lia.
From Verif Require Import Lib_R Lib_Loop Spec_Wire Model_Thermo Proofs_Wire Prop_Static Prop_Thermo Prop_Elem1 Model_Elem1 Model_Elem2 Proofs_Elem Prop_Station Prop_Station2 Prop_Station3 Prop_Station4 Prop_Station5 Prop_Station6 Prop_Station7 Prop_Station8 Model_Cycle Prop_Cycle Model_Examples Data_Examples Prop_Examples.
Open Scope string_scope. Open Scope list_scope. Open Scope R_scope.

Definition pair_eqb : string * string -> string * string -> bool := port_eqb.
Definition conn_b (x : example) (a b : string) : bool := existsb (pair_eqb (a, b)) (x_conns x).
Lemma conn_ok x a b : conn_b x a b = true -> In (a, b) (x_conns x). Proof. unfold conn_b. intros H. apply existsb_exists in H as (p & Hp & E). apply port_eqb_eq in E. subst. exact Hp. Qed.
Fixpoint indexed {A} (i : nat) (l : list A) : list (nat * A) := match l with [] => [] | a :: l => (i, a) :: indexed (S i) l end.
Lemma indexed_in {A} (l : list A) : forall j i a, nth_error l i = Some a -> In ((j + i)%nat, a) (indexed j l).
Proof. induction l as [|b l IH]; intros j [|i] a H; try discriminate H; cbn. - injection H as ->. left. f_equal. lia. - right. replace (j + S i)%nat with (S j + i)%nat by lia. apply IH. exact H. Qed.

(* ---------- thrust and fuel ---------- *)
Definition perf_b (g : engine) : bool :=
  let x := g_ex g in
  if existsb (fun p => match p with (n, (i, j)) => if String.eqb n "perf" then if Nat.eqb i (List.length (g_nozzles g)) then Nat.eqb j (List.length (g_burners g)) else false else false end) (x_perfs x) then
  if forallb (fun ia => conn_b x (snd ia ++ ".Fg")%string ("perf.Fg_" ++ natstr (fst ia))%string) (indexed 0 (g_nozzles g)) then
  if forallb (fun ia => conn_b x (snd ia ++ ".Wfuel")%string ("perf.Wfuel_" ++ natstr (fst ia))%string) (indexed 0 (g_burners g)) then
  if forallb (fun n => conn_b x "fc.Fl_O:stat:P" (n ++ ".Ps_exhaust")%string) (g_nozzles g) then
  if existsb (fun k => if port_eqb (l_src k) ("fc", "Fl_O") then if port_eqb (l_tgt k) ("inlet", "Fl_I") then l_stat k else false else false) (x_links x) then
  if existsb (fun nc => match snd nc with XInlet => String.eqb (fst nc) "inlet" | _ => false end) (x_els x) then
  conn_b x "inlet.F_ram" "perf.ram_drag" else false else false else false else false else false else false.
Lemma perfs_ok : forallb perf_b engines = true. Proof. vm_compute. match goal with |- true = true => reflexivity end. Qed.
(* the gross thrust of a nozzle, in lbf, against the ambient static pressure amb *)
Definition thrust_lbf (v : state) (lc : loss_coef) (amb : R) : R :=
  match lc with
  | Cv => val v "Cv" * val v "perf_calcs.Cang" * val v "perf_calcs.CmixCorr" * ((val v "Fl_I:stat:W" / ufac "lbm/s") * (val v "Fl_O:stat:V" / ufac "ft/s") / g_c) +
          ((val v "Fl_O:stat:P" - amb) * val v "Fl_O:stat:area") / ufac "lbf"
  | Cfg => val v "Cfg" * ((val v "Fl_I:stat:W" / ufac "lbm/s") * (val v "ideal_flow.flow:V" / ufac "ft/s") / g_c)
  end.
Tactic Notation "stepk" hyp(K) ident(E) := match type of K with (if ?b then _ else false) = true => destruct b eqn:E; [|discriminate K] end.
Ltac stepf K := match type of K with (if ?b then false else _) = true => destruct b eqn:?; [discriminate K|] end.
Lemma lsum_over {A} (f : A -> R) u (l : list A) : lsum (fun a => f a / u) l = lsum f l / u.
Proof. unfold Rdiv. apply lsum_scal_r. Qed.
Lemma app_dot a b : (a ++ "." ++ b)%string = ((a ++ ".") ++ b)%string. Proof. symmetry. apply (sapp_assoc a "." b). Qed.
(* net thrust is the gross thrust of the nozzles less the ram drag of the captured air at flight speed; fuel flow is that of the combustors *)
Theorem C67_thrust tp g els w : In g engines -> at_point tp (g_ex g) els w ->
  w "perf.Fn" 0%nat = lsum (fun n => val (local w n) "Fg") (g_nozzles g) - w "inlet.F_ram" 0%nat /\
  w "inlet.F_ram" 0%nat / ufac "lbf" = (mass_flow w ("inlet", "Fl_I") / ufac "lbm/s") * (w "fc.Fl_O:stat:V" 0%nat / ufac "ft/s") / g_c /\
  (forall n t c, In (n, XNozzle t c) (x_els (g_ex g)) -> val (local w n) "Fg" / ufac "lbf" = thrust_lbf (local w n) c (w "fc.Fl_O:stat:P" 0%nat)) /\
  (g_burners g <> [] ->
     w "perf.Wfuel" 0%nat = lsum (fun n => val (local w n) "Wfuel") (g_burners g) /\
     w "perf.TSFC" 0%nat = w "perf.Wfuel" 0%nat / ufac "lbm/s" * 3600 / (w "perf.Fn" 0%nat / ufac "lbf" + / 10 ^ 10)).
Proof.
  intros Hg (B & M & C & Rg). assert (K := perfs_ok). rewrite forallb_forall in K. specialize (K g Hg). unfold perf_b in K. cbv zeta in K.
  stepk K E1. stepk K E2. stepk K E3. stepk K E4. stepk K E5. stepk K E6. apply conn_ok in K.
  apply existsb_exists in E1 as ([n [i j]] & Hp & E1). cbv beta iota in E1. destruct (String.eqb n "perf") eqn:En; [|discriminate]. apply String.eqb_eq in En. subst n.
  destruct (Nat.eqb i (List.length (g_nozzles g))) eqn:Ei; [|discriminate]. apply Nat.eqb_eq in Ei. apply Nat.eqb_eq in E1. subst i j.
  rewrite forallb_forall in E2, E3, E4.
  assert (P := cv_perf _ _ _ _ C _ _ _ Hp). unfold computed in P. set (e := comp_env perf_unit w "perf") in *.
  destruct (C35_performance_values (List.length (g_nozzles g)) (List.length (g_burners g)) e (fun _ => 0)) as (V1 & V2 & _ & V3).
  set (u := ufac "lbf") in *. assert (Nu : u <> 0) by apply ufac_n0. set (um := ufac "lbm/s") in *. assert (Num : um <> 0) by apply ufac_n0.
  assert (SF : lsum (fun i => e (I "Fg_" i)) (seq 0 (List.length (g_nozzles g))) = lsum (fun n => val (local w n) "Fg") (g_nozzles g) / u).
  { rewrite <- lsum_over. apply lsum_seq. intros i n Hi. apply (indexed_in _ 0) in Hi. specialize (E2 _ Hi). cbn [fst snd Nat.add] in E2. apply conn_ok in E2.
    assert (Q := cv_conn _ _ _ _ C _ _ E2 0%nat). change (e (I "Fg_" i)) with (w ("perf.Fg_" ++ natstr i)%string 0%nat / u). rewrite Q. reflexivity. }
  assert (SW : lsum (fun i => e (I "Wfuel_" i)) (seq 0 (List.length (g_burners g))) = lsum (fun n => val (local w n) "Wfuel") (g_burners g) / um).
  { rewrite <- lsum_over. apply lsum_seq. intros i n Hi. apply (indexed_in _ 0) in Hi. specialize (E3 _ Hi). cbn [fst snd Nat.add] in E3. apply conn_ok in E3.
    assert (Q := cv_conn _ _ _ _ C _ _ E3 0%nat). change (e (I "Wfuel_" i)) with (w ("perf.Wfuel_" ++ natstr i)%string 0%nat / um). rewrite Q. reflexivity. }
  assert (RD : e (V "ram_drag") = w "inlet.F_ram" 0%nat / u) by (change (e (V "ram_drag")) with (w "perf.ram_drag" 0%nat / u); rewrite (cv_conn _ _ _ _ C _ _ K 0%nat); reflexivity).
  assert (FN : w "perf.Fn" 0%nat / u = lsum (fun n => val (local w n) "Fg") (g_nozzles g) / u - w "inlet.F_ram" 0%nat / u).
  { rewrite <- SF, <- RD, <- V2. apply (P (V "Fn")). cbn [performance outs]. apply in_or_app. left. cbn. tauto. }
  split. { replace (w "perf.Fn" 0%nat) with (w "perf.Fn" 0%nat / u * u) by (field; exact Nu). rewrite FN. field. exact Nu. }
  split.
  { apply existsb_exists in E6 as ([n c] & Hn & E6). cbn [fst snd] in E6. destruct c; try discriminate E6. apply String.eqb_eq in E6. subst n.
    destruct (rel_has _ _ _ _ B Hn) as (k & Hk & Ck). cbn in Ck. subst k.
    assert (S := proj1 (cv_run _ _ _ _ C) _ _ Hk). cbn [egroup] in S. apply C48_inlet in S as (_ & _ & _ & _ & _ & F & _).
    apply existsb_exists in E5 as (k & Hl & E5). destruct (port_eqb (l_src k) ("fc", "Fl_O")) eqn:X1; [|discriminate]. destruct (port_eqb (l_tgt k) ("inlet", "Fl_I")) eqn:X2; [|discriminate].
    apply port_eqb_eq in X1, X2. assert (Q := proj2 (cv_run _ _ _ _ C) k Hl). rewrite X1, X2, E5 in Q.
    assert (QV : w "inlet.Fl_I:stat:V" 0%nat = w "fc.Fl_O:stat:V" 0%nat).
    { apply (Q "fc.Fl_O:stat:V" "inlet.Fl_I:stat:V"). unfold flow_connections. destruct (l_tot k), (l_w k); cbn; tauto. }
    unfold val, local in F. change (("inlet" ++ "." ++ "F_ram")%string) with "inlet.F_ram" in F. change (("inlet" ++ "." ++ "Fl_I:stat:V")%string) with "inlet.Fl_I:stat:V" in F. rewrite QV in F. exact F. }
  split.
  { intros n t c Hn. destruct (rel_has _ _ _ _ B Hn) as (k & Hk & Ck). cbn in Ck. subst k.
    assert (S := proj1 (cv_run _ _ _ _ C) _ _ Hk). cbn [egroup] in S. apply C48_nozzle in S. cbv zeta in S.
    destruct S as (_ & _ & _ & _ & _ & _ & _ & _ & _ & _ & _ & _ & _ & _ & _ & F1 & F2).
    assert (In n (g_nozzles g)).
    { destruct (engine_facts g els Hg B M) as (_ & _ & _ & _ & _ & _ & _ & _ & _ & Je & _). rewrite <- Je. apply in_map_iff. exists (n, XNozzle t c). split; [reflexivity|]. apply filter_In. auto. }
    assert (Q := E4 n H). apply conn_ok in Q. assert (QA := cv_conn _ _ _ _ C _ _ Q 0%nat).
    unfold u. unfold thrust_lbf. destruct c; [exact (F1 eq_refl)|]. rewrite (F2 eq_refl). rewrite <- QA. reflexivity. }
  intros NB. assert (NB' : List.length (g_burners g) <> 0%nat) by (destruct (g_burners g); [contradiction|discriminate]). destruct (V3 NB') as (W1 & _ & W2).
  assert (In (V "Wfuel") (outs (performance (List.length (g_nozzles g)) (List.length (g_burners g)))) /\ In (V "TSFC") (outs (performance (List.length (g_nozzles g)) (List.length (g_burners g))))) as [I1 I2].
  { cbn [performance outs]. destruct (List.length (g_burners g)); [contradiction|]. cbn. tauto. }
  assert (FW : w "perf.Wfuel" 0%nat / um = lsum (fun n => val (local w n) "Wfuel") (g_burners g) / um) by (rewrite <- SW, <- W1; exact (P _ I1)).
  split. { replace (w "perf.Wfuel" 0%nat) with (w "perf.Wfuel" 0%nat / um * um) by (field; exact Num). rewrite FW. field. exact Num. }
  assert (T := P _ I2). change (e (V "TSFC")) with (w "perf.TSFC" 0%nat / ufac "") in T. rewrite ufac_none in T.
  replace (w "perf.TSFC" 0%nat) with (w "perf.TSFC" 0%nat / 1) by field. rewrite T.
  assert (I3 : In (V "Fn") (outs (performance (List.length (g_nozzles g)) (List.length (g_burners g))))) by (cbn [performance outs]; apply in_or_app; left; cbn; tauto).
  change (w "perf.Wfuel" 0%nat / um) with (e (V "Wfuel")). change (w "perf.Fn" 0%nat / u) with (e (V "Fn")). rewrite (P _ I1), (P _ I3), W2.
  replace (1 / 10 ^ 10) with (/ 10 ^ 10) by (unfold Rdiv; ring). reflexivity.
Qed.


(* ---------- shafts ---------- *)
(* what turns a shaft, in the order of its ports; what its balance asks for *)
Inductive source := Mach (n : string) | GearOut | GearIn.
Inductive load := Balanced             (* net power zero *)
                | Delivers (v : string)(* net power equal to the value of v *)
                | Ignores.             (* torques in and out equal: power extraction and friction are left out of the balance *)
Record spool := mkSpool { sp_shafts : list (string * load * list source); sp_gear : string }.
Definition one (s : string) (l : load) (ms : list string) : spool := mkSpool ((s, l, map Mach ms) :: nil) "".
Definition geared : list spool :=
  [mkSpool [("fan_shaft", Balanced, [Mach "fan"; GearOut]); ("lp_shaft", Balanced, [GearIn; Mach "lpc"; Mach "lpt"])] "gearbox"; one "hp_shaft" Balanced ["hpc"; "hpt"]].
Definition shafting : list (example * list spool) := [
  (x_Turbojet, [one "shaft" Balanced ["comp"; "turb"]]); (x_Turbojet_od, [one "shaft" Balanced ["comp"; "turb"]]);
  (x_WetTurbojet, [one "shaft" Balanced ["comp"; "turb"]]); (x_WetTurbojet_od, [one "shaft" Balanced ["comp"; "turb"]]);
  (x_ABTurbojet, [one "shaft" Balanced ["comp"; "turb"]]); (x_ABTurbojet_od, [one "shaft" Ignores ["comp"; "turb"]]);
  (x_Propulsor, []); (x_Propulsor_od, []); (x_WetPropulsor, []); (x_WetPropulsor_od, []);
  (x_SingleSpoolTurboshaft, [one "HP_shaft" Balanced ["comp"; "turb"]; one "LP_shaft" (Delivers "balance.pwr_target") ["pt"]]);
  (x_SingleSpoolTurboshaft_od, [one "HP_shaft" Balanced ["comp"; "turb"]; one "LP_shaft" (Delivers "balance.pwr_target") ["pt"]]);
  (x_MultiSpoolTurboshaft, [one "lp_shaft" Balanced ["pt"]; one "ip_shaft" Balanced ["lpc"; "lpt"]; one "hp_shaft" Balanced ["hpc_axi"; "hpc_centri"; "hpt"]]);
  (x_MultiSpoolTurboshaft_od, [one "lp_shaft" (Delivers "balance.rhs:FAR") ["pt"]; one "ip_shaft" Balanced ["lpc"; "lpt"]; one "hp_shaft" Balanced ["hpc_axi"; "hpc_centri"; "hpt"]]);
  (x_HBTF, [one "lp_shaft" Balanced ["fan"; "lpc"; "lpt"]; one "hp_shaft" Balanced ["hpc"; "hpt"]]);
  (x_HBTF_od, [one "lp_shaft" Balanced ["fan"; "lpc"; "lpt"]; one "hp_shaft" Balanced ["hpc"; "hpt"]]);
  (x_HBTF_od_pc, [one "lp_shaft" Balanced ["fan"; "lpc"; "lpt"]; one "hp_shaft" Balanced ["hpc"; "hpt"]]);
  (x_MixedFlowTurbofan, [one "lp_shaft" Ignores ["fan"; "lpc"; "lpt"]; one "hp_shaft" Ignores ["hpc"; "hpt"]]);
  (x_MixedFlowTurbofan_od, [one "lp_shaft" Ignores ["fan"; "lpc"; "lpt"]; one "hp_shaft" Ignores ["hpc"; "hpt"]]);
  (x_N3, geared); (x_N3_cooling, geared); (x_N3_od, geared); (x_N3_od_cooling, geared) ].
Definition machines (sp : spool) : list string := flat_map (fun s => flat_map (fun c => match c with Mach n => [n] | _ => [] end) (snd s)) (sp_shafts sp).
Definition sh_ (w : state) (s x : string) : R := w (s ++ "." ++ x)%string 0%nat / ufac (sh_unit x).     (* a shaft's variable in its declared unit *)
(* what the shaft must be given, in hp *)
Definition demand (w : state) (s : string * load * list source) : R :=
  let n := fst (fst s) in
  match snd (fst s) with
  | Balanced => sh_ w n "HPX" + sh_ w n "fracLoss" * sh_ w n "pwr_in"
  | Delivers v => w v 0%nat / ufac "hp" + sh_ w n "HPX" + sh_ w n "fracLoss" * sh_ w n "pwr_in"
  | Ignores => 0
  end.
(* a converged gearbox of efficiency eff adds this much (hp) to the power its two shafts see: zero if eff = 1, and, when the machine on the
   output side absorbs power (trq_out > 0), a gain for eff < 1 *)
Definition gear_gain (w : state) (g : string) : R :=
  (1 - w (g ++ ".eff")%string 0%nat) * (w (g ++ ".N_out")%string 0%nat / ufac "rpm" * (w (g ++ ".trq_out")%string 0%nat / ufac "ft*lbf")) * (2 * PI / 60) / 550.
Definition net_power (w : state) (s : string) : R := sh_ w s "pwr_net".
Definition hp_of (N trq : R) : R := N * trq * (2 * PI / 60) / 550.
Definition src_power (w : state) (g : string) (c : source) : R :=
  match c with
  | Mach n => kappa * power_hp w n
  | GearOut => hp_of (w (g ++ ".N_out")%string 0%nat / ufac "rpm") (w (g ++ ".trq_out")%string 0%nat / ufac "ft*lbf")
  | GearIn => hp_of (w (g ++ ".N_in")%string 0%nat / ufac "rpm") (w (g ++ ".trq_in")%string 0%nat / ufac "ft*lbf")
  end.
(* checks on the data *)
Definition promo_eqb (p q : string * (string * string)) : bool := if String.eqb (fst p) (fst q) then port_eqb (snd p) (snd q) else false.
Definition alias (x : example) (n v : string) : option string :=
  match find (fun p => if String.eqb (fst p) n then String.eqb (fst (snd p)) v else false) (x_promos x) with Some p => Some (snd (snd p)) | None => None end.
Definition opt_eqb (a b : option string) : bool := match a, b with Some a, Some b => String.eqb a b | _, _ => false end.
Definition src_b (x : example) (g s : string) (ic : nat * source) : bool :=
  let t := (s ++ "." ++ "trq_" ++ natstr (fst ic))%string in
  match snd ic with
  | Mach n => if conn_b x (n ++ "." ++ "trq")%string t then if opt_eqb (alias x n "Nmech") (alias x s "Nmech") then existsb (fun nc => if String.eqb (fst nc) n then match snd nc with XCompressor _ | XTurbine _ => true | _ => false end else false) (x_els x) else false else false
  | GearOut => if conn_b x (g ++ "." ++ "trq_out")%string t then opt_eqb (alias x g "N_out") (alias x s "Nmech") else false
  | GearIn => if conn_b x (g ++ "." ++ "trq_in")%string t then opt_eqb (alias x g "N_in") (alias x s "Nmech") else false
  end.
Definition free_b (x : example) (v : string) (z : Z) (u : string) : bool := existsb (fun f => if String.eqb (fst f) v then if String.eqb (fst (snd f)) u then if Z.eqb (fst (snd (snd f))) z then Z.eqb (snd (snd (snd f))) 0 else false else false else false) (x_free x).
(* a balance b of x with left side a: `lhs a b` *)
Definition bal_b (x : example) (a : string) (ok : xbal -> bool) : bool := existsb (fun b => if conn_b x a ("balance.lhs:" ++ xb_name b)%string then ok b else false) (x_bals x).
Definition load_b (x : example) (s : string) (l : load) : bool :=
  let driven := fun a o => bal_b x (s ++ "." ++ a)%string (fun b => if xb_mult b then if String.eqb (xb_rhs b) ("rhs:" ++ xb_name b)%string then
       if conn_b x (s ++ "." ++ o)%string ("balance." ++ xb_rhs b)%string then free_b x ("balance.mult:" ++ xb_name b)%string (-1) "" else false else false else false) in
  match l with
  | Balanced => if bal_b x (s ++ "." ++ "pwr_net")%string (fun b => if xb_mult b then false else free_b x ("balance." ++ xb_rhs b)%string 0 "hp") then true else driven "pwr_in_real" "pwr_out_real"
  | Delivers v => bal_b x (s ++ "." ++ "pwr_net")%string (fun b => if xb_mult b then false else String.eqb v ("balance." ++ xb_rhs b)%string)
  | Ignores => driven "pwr_in" "pwr_out"
  end.
Definition gear_b (x : example) (sp : spool) : bool :=
  match flat_map (fun s => filter (fun c => match c with Mach _ => false | _ => true end) (snd s)) (sp_shafts sp) with
  | [] => String.eqb (sp_gear sp) "" | [GearOut; GearIn] => if String.eqb (sp_gear sp) "" then false else existsb (String.eqb (sp_gear sp)) (x_gears x) | _ => false end.
Definition spool_b (x : example) (sp : spool) : bool :=
  if forallb (fun s => if existsb (fun nk => if String.eqb (fst nk) (fst (fst s)) then Nat.eqb (snd nk) (List.length (snd s)) else false) (x_shafts x) then
       if forallb (src_b x (sp_gear sp) (fst (fst s))) (indexed 0 (snd s)) then load_b x (fst (fst s)) (snd (fst s)) else false else false) (sp_shafts sp) then gear_b x sp else false.
Definition turbo_x (nc : string * eclass) : bool := match snd nc with XCompressor _ | XTurbine _ => true | _ => false end.
Definition shafts_b (xs : example * list spool) : bool :=
  if forallb (spool_b (fst xs)) (snd xs) then
    if nodup_str_b (flat_map machines (snd xs)) then
      match snd xs with [] => match x_shafts (fst xs) with [] => true | _ => false end
      | _ => if forallb (fun n => existsb (String.eqb n) (flat_map machines (snd xs))) (map fst (filter turbo_x (x_els (fst xs)))) then
               str_b (map (fun s => fst (fst s)) (flat_map sp_shafts (snd xs))) (map fst (x_shafts (fst xs))) else false end
    else false else false.
Lemma shafts_ok : forallb shafts_b shafting = true. Proof. vm_compute. match goal with |- true = true => reflexivity end. Qed.
Lemma alias_ok x n v a : alias x n v = Some a -> In (n, (v, a)) (x_promos x).
Proof.
  unfold alias. destruct (find _ (x_promos x)) as [[m [v' b]]|] eqn:E; [|discriminate]. intros H. injection H as <-. apply find_some in E as [H1 H2]. cbn [fst snd] in H2.
  destruct (String.eqb m n) eqn:E1; [|discriminate]. apply String.eqb_eq in E1, H2. subst. exact H1.
Qed.
Lemma alias_same tp x els w n v s u : cycle_converged tp x els w -> opt_eqb (alias x n v) (alias x s u) = true -> local w n v 0%nat = local w s u 0%nat.
Proof.
  intros C. unfold opt_eqb. destruct (alias x n v) as [a|] eqn:E1; [|discriminate]. destruct (alias x s u) as [b|] eqn:E2; [|discriminate]. intros E. apply String.eqb_eq in E. subst b.
  apply alias_ok in E1, E2. rewrite (cv_promo _ _ _ _ C _ _ _ E1 0%nat), (cv_promo _ _ _ _ C _ _ _ E2 0%nat). reflexivity.
Qed.
Lemma sh_val tp x els w s k o : cycle_converged tp x els w -> In (s, k) (x_shafts x) -> In (V o) (outs (shaft k)) -> sh_ w s o = compute (shaft k) (comp_env sh_unit w s) (fun _ => 0) (V o).
Proof. intros C H Ho. exact (cv_shaft _ _ _ _ C s k H (V o) Ho). Qed.
(* one shaft: net power, extraction and friction against what turns it *)
Lemma one_shaft tp x els w g s on : builds x els -> (forall nk, In nk els -> options_ok (snd nk)) -> cycle_converged tp x els w -> In (s, List.length on) (x_shafts x) -> forallb (src_b x g s) (indexed 0 on) = true ->
  w (s ++ "." ++ "Nmech")%string 0%nat <> 0 ->
  sh_ w s "pwr_net" + sh_ w s "HPX" + sh_ w s "fracLoss" * sh_ w s "pwr_in" = lsum (src_power w g) on /\
  sh_ w s "pwr_in" + sh_ w s "pwr_out" = lsum (src_power w g) on /\ sh_ w s "pwr_net" = sh_ w s "pwr_in_real" + sh_ w s "pwr_out_real".
Proof.
  intros B Ok C Hs Sb HN. set (e := comp_env sh_unit w s). assert (En : e (V "Nmech") = w (s ++ "." ++ "Nmech")%string 0%nat) by (change (e (V "Nmech")) with (w (s ++ "." ++ "Nmech")%string 0%nat / ufac "rpm"); rewrite rpm1; field).
  assert (HN' : e (V "Nmech") <> 0) by (rewrite En; exact HN).
  destruct (C34_shaft_power_balance (List.length on) e (fun _ => 0) HN') as (E1 & E2 & E3 & E4 & E5 & _). fold e in E1, E2, E3, E4, E5.
  rewrite (sh_val tp x els w s (List.length on) "pwr_net"), (sh_val tp x els w s (List.length on) "pwr_in"), (sh_val tp x els w s (List.length on) "pwr_out"), (sh_val tp x els w s (List.length on) "pwr_in_real"), (sh_val tp x els w s (List.length on) "pwr_out_real") by (auto; cbn; tauto). fold e.
  change (sh_ w s "HPX") with (e (V "HPX")). replace (sh_ w s "fracLoss") with (e (V "fracLoss")) by reflexivity.
  set (o := compute (shaft (List.length on)) e (fun _ => 0)) in *. set (t := fun i => e (I "trq_" i)) in *. set (P := fun x => x * (2 * PI * e (V "Nmech") / 60) / 550) in *.
  assert (ES : o (V "pwr_in") + o (V "pwr_out") = lsum (fun i => P (t i)) (seq 0 (List.length on))).
  { rewrite E1, E2. rewrite (lsum_filter (fun i => P (t i)) (fun i => if Rge_dec (t i) 0 then true else false) (seq 0 (List.length on))). f_equal. f_equal.
    apply filter_ext'. intros i. unfold t. destruct (Rge_dec (e (I "trq_" i)) 0); reflexivity. }
  assert (EP : lsum (fun i => P (t i)) (seq 0 (List.length on)) = lsum (src_power w g) on).
  { rewrite forallb_forall in Sb. apply lsum_seq. intros i c Hi. apply (indexed_in _ 0) in Hi. specialize (Sb _ Hi). cbn [Nat.add] in Sb. unfold src_b in Sb. cbn [fst snd] in Sb. cbv zeta in Sb.
    assert (Et : forall a, conn_b x a (s ++ "." ++ "trq_" ++ natstr i)%string = true -> t i = w a 0%nat / ufac "ft*lbf").
    { intros a Ha. apply conn_ok in Ha. unfold t. change (e (I "trq_" i)) with (w (s ++ "." ++ "trq_" ++ natstr i)%string 0%nat / ufac "ft*lbf"). rewrite (cv_conn _ _ _ _ C _ _ Ha 0%nat). reflexivity. }
    destruct c as [n| |]; cbn [src_power].
    - stepk Sb X1. stepk Sb X2. apply Et in X1. apply (alias_same _ _ _ _ _ _ _ _ C) in X2.
      apply existsb_exists in Sb as ([n' c] & Hn & Sb). cbn [fst snd] in Sb. stepk Sb X3. apply String.eqb_eq in X3. subst n'.
      destruct (rel_has _ _ _ _ B Hn) as (k & Hk & Ck). assert (Sk := proj1 (cv_run _ _ _ _ C) _ _ Hk).
      assert (Tk : turbo (n, k) = true) by (destruct c; try discriminate Sb; cbn in Ck; unclass Ck; reflexivity).
      assert (Etq := elem_torque _ _ _ w n k (Ok _ Hk) Tk Sk). unfold val at 1 2 3 in Etq. rewrite X2 in Etq. change (local w s "Nmech" 0%nat) with (w (s ++ "." ++ "Nmech")%string 0%nat) in Etq. rewrite <- En in Etq. specialize (Etq HN').
      change (local w n "trq" 0%nat) with (w (n ++ "." ++ "trq")%string 0%nat) in Etq. rewrite <- X1 in Etq.
      unfold P, kappa. replace (HP_per_RPM_to_FT_LBF * (2 * PI / 33000) * power_hp w n) with (t i * e (V "Nmech") * (2 * PI / 33000)) by (rewrite Etq; ring). field.
    - stepk Sb X1. apply Et in X1. apply (alias_same _ _ _ _ _ _ _ _ C) in Sb. unfold P, hp_of. change (w (g ++ "." ++ "trq_out")%string 0%nat) with (w (g ++ ".trq_out")%string 0%nat) in X1. rewrite X1, En. change (local w g "N_out" 0%nat) with (w (g ++ ".N_out")%string 0%nat) in Sb. rewrite Sb, rpm1. unfold local. field. apply ufac_n0.
    - stepk Sb X1. apply Et in X1. apply (alias_same _ _ _ _ _ _ _ _ C) in Sb. unfold P, hp_of. change (w (g ++ "." ++ "trq_in")%string 0%nat) with (w (g ++ ".trq_in")%string 0%nat) in X1. rewrite X1, En. change (local w g "N_in" 0%nat) with (w (g ++ ".N_in")%string 0%nat) in Sb. rewrite Sb, rpm1. unfold local. field. apply ufac_n0. }
  rewrite <- EP, <- ES, E5, E3, E4. split; [ring|split; ring].
Qed.
Lemma free_ok tp x els w v z u : cycle_converged tp x els w -> free_b x v z u = true -> w v 0%nat = IZR z * ufac u.
Proof.
  intros C H. apply existsb_exists in H as ([v' [u' [m e]]] & Hf & H). cbn [fst snd] in H. stepk H X1. stepk H X2. stepk H X3. apply String.eqb_eq in X1, X2. apply Z.eqb_eq in X3, H. subst.
  rewrite (cv_free _ _ _ _ C _ _ _ Hf). unfold dR. cbn. ring.
Qed.
Lemma bal_ok tp x els w a ok : cycle_converged tp x els w -> bal_b x a ok = true ->
  exists b, ok b = true /\ (if xb_mult b then w ("balance.mult:" ++ xb_name b)%string 0%nat else 1) * w a 0%nat = w ("balance." ++ xb_rhs b)%string 0%nat.
Proof.
  intros C H. apply existsb_exists in H as (b & Hb & H). stepk H X1. apply conn_ok in X1. exists b. split; [exact H|].
  rewrite <- (cv_bal _ _ _ _ C b Hb). rewrite (cv_conn _ _ _ _ C _ _ X1 0%nat). reflexivity.
Qed.
Lemma driven_ok tp x els w s a o : cycle_converged tp x els w ->
  bal_b x (s ++ "." ++ a)%string (fun b => if xb_mult b then if String.eqb (xb_rhs b) ("rhs:" ++ xb_name b)%string then
       if conn_b x (s ++ "." ++ o)%string ("balance." ++ xb_rhs b)%string then free_b x ("balance.mult:" ++ xb_name b)%string (-1) "" else false else false else false) = true ->
  w (s ++ "." ++ a)%string 0%nat + w (s ++ "." ++ o)%string 0%nat = 0.
Proof.
  intros C H. destruct (bal_ok _ _ _ _ _ _ C H) as (b & Hb & E). stepk Hb X1. stepk Hb X2. stepk Hb X3. apply conn_ok in X3. apply (free_ok _ _ _ _ _ _ _ C) in Hb.
  rewrite (cv_conn _ _ _ _ C _ _ X3 0%nat), Hb, ufac_none in E. rewrite <- E. ring.
Qed.
Lemma load_net tp x els w s l : cycle_converged tp x els w -> load_b x s l = true ->
  match l with
  | Balanced => sh_ w s "pwr_net" = 0 \/ sh_ w s "pwr_in_real" + sh_ w s "pwr_out_real" = 0
  | Delivers v => sh_ w s "pwr_net" = w v 0%nat / ufac "hp"
  | Ignores => sh_ w s "pwr_in" + sh_ w s "pwr_out" = 0
  end.
Proof.
  intros C H. assert (N := ufac_n0 "hp"). unfold load_b in H. cbv zeta in H.
  assert (D : forall a o, sh_unit a = "hp" -> sh_unit o = "hp" -> w (s ++ "." ++ a)%string 0%nat + w (s ++ "." ++ o)%string 0%nat = 0 -> sh_ w s a + sh_ w s o = 0).
  { intros a o Ha Ho E. unfold sh_. rewrite Ha, Ho. unfold Rdiv. rewrite <- Rmult_plus_distr_r, E. ring. }
  destruct l as [|v|].
  - destruct (bal_b x (s ++ "." ++ "pwr_net")%string _) eqn:E.
    + left. destruct (bal_ok _ _ _ _ _ _ C E) as (b & Hb & Eb). destruct (xb_mult b); [discriminate|]. apply (free_ok _ _ _ _ _ _ _ C) in Hb. rewrite Hb in Eb. unfold sh_. replace (w (s ++ "." ++ "pwr_net")%string 0%nat) with 0 by lra. unfold Rdiv. ring.
    + right. apply D; [reflexivity..|]. exact (driven_ok _ _ _ _ _ _ _ C H).
  - destruct (bal_ok _ _ _ _ _ _ C H) as (b & Hb & Eb). destruct (xb_mult b); [discriminate|]. apply String.eqb_eq in Hb. subst v. rewrite <- Eb, Rmult_1_l. reflexivity.
  - apply D; [reflexivity..|]. exact (driven_ok _ _ _ _ _ _ _ C H).
Qed.
Lemma spool_data x sps sp : In (x, sps) shafting -> In sp sps -> spool_b x sp = true.
Proof.
  intros H1 H2. assert (K := shafts_ok). rewrite forallb_forall in K. assert (Hb := K _ H1).
  unfold shafts_b in Hb. cbn [fst snd] in Hb. stepk Hb X1. rewrite forallb_forall in X1. auto.
Qed.

Lemma src_split w g on : lsum (src_power w g) on = kappa * lsum (power_hp w) (flat_map (fun c => match c with Mach n => n :: nil | _ => [] end) on) +
  lsum (src_power w g) (filter (fun c => match c with Mach _ => false | _ => true end) on).
Proof.
  induction on as [|c on IH]; [cbn; unfold lsum; cbn; ring|]. rewrite lsum_c, IH. destruct c; cbn [flat_map filter app src_power]; rewrite ?lsum_c; cbn [src_power]; ring.
Qed.
Lemma src_split_all w g (ss : list (string * load * list source)) : lsum (fun s => lsum (src_power w g) (snd s)) ss =
  kappa * lsum (power_hp w) (flat_map (fun s => flat_map (fun c => match c with Mach n => n :: nil | _ => [] end) (snd s)) ss) +
  lsum (src_power w g) (flat_map (fun s => filter (fun c => match c with Mach _ => false | _ => true end) (snd s)) ss).
Proof. induction ss as [|s ss IH]; [cbn; unfold lsum; cbn; ring|]. rewrite lsum_c, IH, src_split. cbn [flat_map]. rewrite !lsum_app. ring. Qed.
Lemma gear_ports tp x els w g : cycle_converged tp x els w -> In g (x_gears x) -> w (g ++ ".N_in")%string 0%nat <> 0 -> src_power w g GearOut + src_power w g GearIn = gear_gain w g.
Proof.
  intros C Hg HN. assert (K := cv_gear _ _ _ _ C g Hg). set (e := comp_env gb_unit w g) in *.
  assert (EN : e (V "N_in") = w (g ++ ".N_in")%string 0%nat) by (change (e (V "N_in")) with (w (g ++ ".N_in")%string 0%nat / ufac "rpm"); rewrite rpm1; field).
  assert (HN' : e (V "N_in") <> 0) by (rewrite EN; exact HN).
  assert (Kc : gearbox_converged (x_design x) e) by (exact K).
  destruct (C34_gearbox_power_balance (x_design x) e HN' Kc) as (P & _).
  assert (Ee : e (V "eff") = w (g ++ ".eff")%string 0%nat) by (change (e (V "eff")) with (w (g ++ ".eff")%string 0%nat / ufac ""); rewrite ufac_none; field).
  unfold src_power, hp_of, gear_gain. rewrite <- Ee.
  change (w (g ++ ".N_in")%string 0%nat / ufac "rpm") with (e (V "N_in")). change (w (g ++ ".N_out")%string 0%nat / ufac "rpm") with (e (V "N_out")).
  change (w (g ++ ".trq_in")%string 0%nat / ufac "ft*lbf") with (e (V "trq_in")). change (w (g ++ ".trq_out")%string 0%nat / ufac "ft*lbf") with (e (V "trq_out")).
  replace (e (V "N_in") * e (V "trq_in")) with (- (e (V "eff") * (e (V "N_out") * e (V "trq_out")))) by lra. field.
Qed.

Lemma indexed_all {A} (l : list A) : forall j a, In a l -> exists i, In (i, a) (indexed j l).
Proof. induction l as [|b l IH]; intros j a H; [contradiction|]. destruct H as [->|H]; [exists j; left; reflexivity|]. destruct (IH (S j) a H) as [i Hi]. exists i. right. exact Hi. Qed.
Lemma shafting_all : map fst shafting = examples. Proof. reflexivity. Qed.
Lemma example_engine x : In x examples -> exists g, In g engines /\ g_ex g = x.
Proof. rewrite <- (proj1 C67_network). intros H. apply in_map_iff in H as (g & E & H). exists g. auto. Qed.
Lemma example_options x els : In x examples -> builds x els -> (forall nk, In nk els -> made nk) -> forall nk, In nk els -> options_ok (snd nk).
Proof. intros H B M [n k] Hk. destruct (example_engine x H) as (g & Hg & <-). exact (proj1 (proj2 (proj1 (proj2 C67_network g els Hg B M))) n k Hk). Qed.
(* the turbines and compressors of a spool deliver exactly what its shafts ask for: power extraction and friction, and the net power that was
   asked for; but the mixed-flow turbofan and the afterburning turbojet off design leave extraction and friction out, so that the machines
   deliver nothing for them and the shaft's net power is off by that amount *)
Theorem C67_shaft tp x sps sp els w : In (x, sps) shafting -> In sp sps -> at_point tp x els w ->
  (forall s l on, In (s, l, on) (sp_shafts sp) -> w (s ++ ".Nmech")%string 0%nat <> 0) ->
  kappa * lsum (power_hp w) (machines sp) + (if String.eqb (sp_gear sp) "" then 0 else gear_gain w (sp_gear sp)) = lsum (demand w) (sp_shafts sp) /\
  forall s l on, In (s, l, on) (sp_shafts sp) -> net_power w s = match l with Balanced => 0 | Delivers v => w v 0%nat / ufac "hp" | Ignores => - (sh_ w s "HPX" + sh_ w s "fracLoss" * sh_ w s "pwr_in") end.
Proof.
  intros Hx Hsp (B & M & C & Rg) HN. assert (Sb := spool_data x sps sp Hx Hsp). unfold spool_b in Sb. stepk Sb X1. rewrite forallb_forall in X1.
  assert (Ok := example_options x els ltac:(rewrite <- shafting_all; apply in_map_iff; exists (x, sps); auto) B M).
  assert (F : forall s l on, In (s, l, on) (sp_shafts sp) ->
     forallb (src_b x (sp_gear sp) s) (indexed 0 on) = true /\ demand w (s, l, on) = lsum (src_power w (sp_gear sp)) on /\ net_power w s = match l with Balanced => 0 | Delivers v => w v 0%nat / ufac "hp" | Ignores => - (sh_ w s "HPX" + sh_ w s "fracLoss" * sh_ w s "pwr_in") end).
  { intros s l on Hs. specialize (X1 _ Hs). cbn [fst snd] in X1. stepk X1 Y1. stepk X1 Y2. apply existsb_exists in Y1 as ([s' k] & Hk & Y1). cbn [fst snd] in Y1. stepk Y1 Y3. apply String.eqb_eq in Y3. apply Nat.eqb_eq in Y1. subst s' k.
    destruct (one_shaft tp x els w (sp_gear sp) s on B Ok C Hk Y2 (HN s l on Hs)) as (O1 & O2 & O3). assert (L := load_net _ _ _ _ _ _ C X1).
    split; [reflexivity|]. unfold demand, net_power. cbn [fst snd]. destruct l as [|v|].
    - assert (sh_ w s "pwr_net" = 0) by (destruct L; lra). split; lra.
    - split; lra.
    - split; lra. }
  split; [|intros s l on Hs; apply (F s l on Hs)].
  assert (D : lsum (demand w) (sp_shafts sp) = lsum (fun s => lsum (src_power w (sp_gear sp)) (snd s)) (sp_shafts sp)) by (apply lsum_ext; intros [[s l] on] Hs; apply (F s l on Hs)).
  rewrite D, src_split_all. fold (machines sp). f_equal. unfold gear_b in Sb.
  destruct (flat_map (fun s => filter _ (snd s)) (sp_shafts sp)) as [|c1 [|c2 [|]]] eqn:E; [rewrite Sb; reflexivity|destruct c1; discriminate|destruct c1; [discriminate| |discriminate]; destruct c2; try discriminate|destruct c1; [discriminate| |discriminate]; destruct c2; discriminate].
  stepf Sb. apply existsb_exists in Sb as (g & Hg & Eg). apply String.eqb_eq in Eg. subst g. rewrite lsum2. symmetry. apply (gear_ports tp x els w _ C Hg).
  assert (Hi : In GearIn (flat_map (fun s => filter (fun c => match c with Mach _ => false | _ => true end) (snd s)) (sp_shafts sp))) by (rewrite E; right; left; reflexivity).
  apply in_flat_map in Hi as ([[s l] on] & Hs & Hi). apply filter_In in Hi as [Hi _]. cbn [snd] in Hi. destruct (indexed_all on 0%nat _ Hi) as [i Hii].
  destruct (F s l on Hs) as (Fs & _). rewrite forallb_forall in Fs. specialize (Fs _ Hii). unfold src_b in Fs. cbn [fst snd] in Fs. cbv zeta in Fs. stepk Fs Y1.
  apply (alias_same _ _ _ _ _ _ _ _ C) in Fs. change (local w (sp_gear sp) "N_in" 0%nat) with (w (sp_gear sp ++ ".N_in")%string 0%nat) in Fs. rewrite Fs. exact (HN s l on Hs).
Qed.
(* the table covers every example; every compressor and turbine of an example with shafts is on exactly one of its spools *)
Theorem C67_shafting : map fst shafting = examples /\ forall x sps, In (x, sps) shafting ->
  NoDup (flat_map machines sps) /\ (sps <> [] -> forall n c, In (n, c) (x_els x) -> turbo_x (n, c) = true -> In n (flat_map machines sps)) /\
  map fst (x_shafts x) = flat_map (fun sp => map (fun s => fst (fst s)) (sp_shafts sp)) sps.
Proof.
  split; [reflexivity|]. intros x sps H. assert (K := shafts_ok). rewrite forallb_forall in K. specialize (K _ H). unfold shafts_b in K. cbn [fst snd] in K. stepk K X1. stepk K X2.
  split; [apply nodup_str_ok; exact X2|]. destruct sps as [|sp sps].
  - split; [congruence|]. destruct (x_shafts x); [reflexivity|discriminate].
  - stepk K X3. split.
    + intros _ n c Hn T. rewrite forallb_forall in X3. assert (Y := X3 n ltac:(apply in_map_iff; exists (n, c); split; [reflexivity|apply filter_In; auto])). apply existsb_exists in Y as (m & Hm & E). apply String.eqb_eq in E. subst m. exact Hm.
    + apply str_ok in K. rewrite <- K. generalize (sp :: sps). clear. induction l as [|s l IH]; [reflexivity|]. cbn [flat_map]. rewrite map_app, IH. reflexivity.
Qed.
