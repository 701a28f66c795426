(* Claim C41: mass and energy are conserved, and every station is consistent, in a whole converged cycle. *)
From Coq Require Import FunctionalExtensionality Permutation Lia.
From Verif Require Import Lib_R Lib_Loop Spec_Wire Model_Thermo Proofs_Wire Prop_Static Prop_Thermo Prop_Elem1 Model_Elem1 Model_Elem2 Proofs_Elem Prop_Station Prop_Station2 Prop_Station3 Prop_Station4 Prop_Station5 Prop_Station6 Prop_Station7 Prop_Station8 Model_Cycle.
Open Scope string_scope. Open Scope list_scope. Open Scope R_scope.

(* ---------- specification ---------- *)
(* options an element accepts: mixers are built by ThermoAdd, bleed names contain no separator *)
Definition options_ok (k : ekind) : Prop :=
  match k with
  | EFlight add => start_ok add
  | EBleedOut bs _ | ECompressor _ _ bs _ => (forall b, In b bs -> ok_name (b ++ ":tot")) /\ NoDup ("Fl_O" :: bs)
  | ECombustor a _ => fuel_adder a
  | ETurbine _ a bs _ => (forall b, In b bs -> contains ":" b = false) /\ flow_adder a bs /\ NoDup ("Fl_I" :: bs)
  | EMixer a _ => flow_adder a ["mix"]
  | _ => True
  end.
Definition all_ports (sel : ekind -> list string) (els : list (string * ekind)) : list port := flat_map (fun nk => map (fun p => (fst nk, p)) (sel (snd nk))) els.
(* a network: distinct element names, links join an outlet to an inlet, no outlet and no inlet is used twice *)
Definition network (els : list (string * ekind)) (links : list link) : Prop :=
  NoDup (map fst els) /\ (forall n k, In (n, k) els -> options_ok k) /\
  (forall l, In l links -> In (l_src l) (all_ports e_out els) /\ In (l_tgt l) (all_ports e_in els)) /\ NoDup (map l_src links) /\ NoDup (map l_tgt links).
Definition port_eqb (p q : port) : bool := String.eqb (fst p) (fst q) && String.eqb (snd p) (snd q).
Definition used (p : port) (l : list port) : bool := existsb (port_eqb p) l.
(* the ports through which the cycle exchanges gas with the outside *)
Definition open_in els (links : list link) : list port := filter (fun p => negb (used p (map l_tgt links))) (all_ports e_in els).
Definition open_out els (links : list link) : list port := filter (fun p => negb (used p (map l_src links))) (all_ports e_out els).
(* mass flow and enthalpy flow through a port (SI) *)
Definition pvar (w : state) (p : port) (x : string) : R := val (local w (fst p)) (snd p ++ ":" ++ x).
Definition mass_flow (w : state) (p : port) : R := pvar w p "stat:W".
Definition enth_flow (w : state) (p : port) : R := pvar w p "stat:W" * pvar w p "tot:h".
(* gas that an element itself brings in *)
Definition mass_in (w : state) (nk : string * ekind) : R :=
  let v := local w (fst nk) in
  match snd nk with
  | EStart _ | EFlight _ | ECfd => val v "W"
  | ECombustor _ _ => val v "Wfuel"
  | _ => 0
  end.
(* no element divides by zero: a splitter does not have BPR = -1, and the streams that are mixed have a sum *)
Definition regular (w : state) (nk : string * ekind) : Prop :=
  let v := local w (fst nk) in
  match snd nk with
  | EDuct _ _ _ => val v "Fl_I:stat:W" <> 0
  | ESplitter _ => val v "BPR" <> -1
  | ECombustor _ _ | ETurbine _ _ _ _ | EMixer _ _ => val v "Fl_O:stat:W" <> 0
  | _ => True
  end.

(* ---------- a balance over the elements and equality along the links give a balance over the open ports ---------- *)
Lemma port_eqb_eq p q : port_eqb p q = true <-> p = q.
Proof. destruct p, q. unfold port_eqb. cbn. rewrite Bool.andb_true_iff, !String.eqb_eq. split; [intros [-> ->]; reflexivity|intros E; injection E; auto]. Qed.
Lemma used_in p l : used p l = true <-> In p l.
Proof.
  unfold used. rewrite existsb_exists. split; [intros (q & H & E); apply port_eqb_eq in E; subst; exact H|intros H; exists p; split; [exact H|apply port_eqb_eq; reflexivity]].
Qed.
Lemma lsum_filter {A} (f : A -> R) (c : A -> bool) l : lsum f l = lsum f (filter c l) + lsum f (filter (fun x => negb (c x)) l).
Proof. unfold lsum. induction l as [|x l IH]; cbn; [ring|]. destruct (c x); cbn; rewrite IH; ring. Qed.
Lemma split_ports (f : port -> R) ports us : NoDup ports -> NoDup us -> incl us ports -> lsum f ports = lsum f us + lsum f (filter (fun p => negb (used p us)) ports).
Proof.
  intros N1 N2 I. rewrite (lsum_filter f (fun p => used p us) ports). f_equal. apply lsum_perm. apply NoDup_Permutation; [apply NoDup_filter; exact N1|exact N2|].
  intros p. rewrite filter_In, used_in. split; [tauto|intros H; split; [apply I; exact H|exact H]].
Qed.
Lemma nodup_app {A} (a b : list A) : NoDup a -> NoDup b -> (forall x, In x a -> In x b -> False) -> NoDup (a ++ b).
Proof.
  induction a as [|x a IH]; cbn; intros H1 H2 D; [exact H2|]. apply NoDup_cons_iff in H1 as [H1 H3]. constructor.
  - intros H. apply in_app_or in H as [H|H]; [exact (H1 H)|exact (D x (or_introl eq_refl) H)].
  - apply IH; [exact H3|exact H2|intros y Hy; apply D; right; exact Hy].
Qed.
Lemma nodup_ports sel els : NoDup (map fst els) -> (forall n k, In (n, k) els -> NoDup (sel k)) -> NoDup (all_ports sel els).
Proof.
  unfold all_ports. induction els as [|[n k] r IH]; cbn; intros N H; [constructor|]. apply NoDup_cons_iff in N as [N1 N2].
  apply nodup_app.
  - apply FinFun.Injective_map_NoDup; [intros a b E; congruence|]. apply (H n). auto.
  - apply IH; [exact N2|]. intros m k' Hm. apply (H m). auto.
  - intros x H1 H2. apply in_map_iff in H1 as (p & <- & _). apply in_flat_map in H2 as ([m k'] & Hm & H2). apply in_map_iff in H2 as (q & E & _). cbn in E. injection E as -> _. apply N1. apply in_map_iff. exists (n, k'). auto.
Qed.
Lemma lsum_ports (q : port -> R) sel els : lsum q (all_ports sel els) = lsum (fun nk => lsum (fun p => q (fst nk, p)) (sel (snd nk))) els.
Proof.
  unfold all_ports. induction els as [|nk r IH]; [reflexivity|]. cbn [flat_map]. rewrite lsum_app, lsum_map, IH. unfold lsum at 3. cbn. unfold lsum. reflexivity.
Qed.
Lemma ports_nodup els links : network els links -> NoDup (all_ports e_in els) /\ NoDup (all_ports e_out els).
Proof.
  intros (N & O & _). split; (apply nodup_ports; [exact N|]); intros n k H; specialize (O _ _ H); destruct k; cbn in O |- *; try (repeat constructor; cbn; intuition discriminate); apply O.
Qed.
Lemma net_balance els links (q : port -> R) (s : string * ekind -> R) : network els links ->
  (forall n k, In (n, k) els -> lsum (fun p => q (n, p)) (e_out k) = lsum (fun p => q (n, p)) (e_in k) + s (n, k)) ->
  (forall l, In l links -> q (l_tgt l) = q (l_src l)) ->
  lsum q (open_in els links) + lsum s els = lsum q (open_out els links).
Proof.
  intros N H L. destruct (ports_nodup els links N) as [Ni No]. destruct N as (_ & _ & P & Us & Ut).
  assert (Ei := split_ports q (all_ports e_in els) (map l_tgt links) Ni Ut). assert (Eo := split_ports q (all_ports e_out els) (map l_src links) No Us).
  assert (I1 : incl (map l_tgt links) (all_ports e_in els)) by (intros p Hp; apply in_map_iff in Hp as (l & <- & Hl); apply P; exact Hl).
  assert (I2 : incl (map l_src links) (all_ports e_out els)) by (intros p Hp; apply in_map_iff in Hp as (l & <- & Hl); apply P; exact Hl).
  specialize (Ei I1). specialize (Eo I2). fold (open_in els links) in Ei. fold (open_out els links) in Eo.
  assert (E : lsum q (all_ports e_out els) = lsum q (all_ports e_in els) + lsum s els).
  { rewrite !lsum_ports. rewrite <- lsum_plus. apply lsum_ext. intros [n k] Hk. cbn. apply H. exact Hk. }
  assert (EL : lsum q (map l_tgt links) = lsum q (map l_src links)) by (rewrite !lsum_map; apply lsum_ext; exact L).
  lra.
Qed.

(* ---------- mass ---------- *)
Lemma lsum2 {A} (f : A -> R) x y : lsum f [x; y] = f x + f y.
Proof. unfold lsum. cbn. ring. Qed.
Lemma lsum_c {A} (f : A -> R) x l : lsum f (x :: l) = f x + lsum f l.
Proof. reflexivity. Qed.
Lemma elem_mass tp me design w n k : options_ok k -> solves (egroup tp me design k) (local w n) -> regular w (n, k) ->
  lsum (fun p => mass_flow w (n, p)) (e_out k) = lsum (fun p => mass_flow w (n, p)) (e_in k) + mass_in w (n, k).
Proof.
  intros O S Rg. unfold regular, mass_in in *. cbn [fst snd] in *. destruct k; cbn [e_in e_out egroup options_ok] in *; rewrite ?lsum1, ?lsum2, ?lsum_c; unfold mass_flow, pvar; cbn [fst snd];
    change (lsum _ []) with 0.
  - apply C48_flow_start in S as (_ & _ & _ & _ & E & _). change (val (local w n) "Fl_O:stat:W" = 0 + val (local w n) "W"). lra.
  - apply (C48_flight_conditions _ _ _ _ O) in S as (_ & _ & E & _). change (val (local w n) "Fl_O:stat:W" = 0 + val (local w n) "W"). lra.
  - apply C48_cfd_start in S as (_ & _ & _ & _ & _ & E & _). change (val (local w n) "Fl_O:stat:W" = 0 + val (local w n) "W"). lra.
  - apply C48_inlet in S as (_ & _ & _ & _ & E & _). change (val (local w n) "Fl_O:stat:W" = val (local w n) "Fl_I:stat:W" + 0). lra.
  - apply C48_duct in S as (_ & _ & _ & _ & E & _). change (val (local w n) "Fl_O:stat:W" = val (local w n) "Fl_I:stat:W" + 0). lra.
  - apply C48_splitter in S as (_ & E). destruct (E Rg) as [E1 _]. change (val (local w n) "Fl_O1:stat:W" + val (local w n) "Fl_O2:stat:W" = val (local w n) "Fl_I:stat:W" + 0). lra.
  - destruct O as [O _]. apply (C48_bleed_out _ _ _ _ _ _ O) in S as (_ & _ & _ & _ & _ & E & _).
    change (val (local w n) "Fl_O:stat:W" + lsum (fun b => val (local w n) (b ++ ":stat:W")) bs = val (local w n) "Fl_I:stat:W" + 0). lra.
  - apply (C48_combustor _ _ _ _ _ _ O) in S as (_ & _ & E & _). destruct (E Rg) as (E1 & _). change (val (local w n) "Fl_O:stat:W" = val (local w n) "Fl_I:stat:W" + val (local w n) "Wfuel"). lra.
  - destruct O as [O _]. apply (C48_compressor _ _ _ _ _ _ _ _ O) in S as (_ & _ & _ & _ & _ & _ & E & _).
    change (val (local w n) "Fl_O:stat:W" + lsum (fun b => val (local w n) (b ++ ":stat:W")) bs = val (local w n) "Fl_I:stat:W" + 0). lra.
  - destruct O as (O & Oa & _). apply (C48_turbine _ _ _ _ _ _ _ _ O Oa) in S as (_ & _ & _ & _ & _ & _ & E & _). destruct (E Rg) as (E1 & _).
    change (val (local w n) "Fl_O:stat:W" = val (local w n) "Fl_I:stat:W" + lsum (fun b => val (local w n) (b ++ ":stat:W")) bs + 0). lra.
  - apply C48_nozzle in S. cbv zeta in S. assert (E : val (local w n) "Fl_O:stat:W" = val (local w n) "Fl_I:stat:W") by apply S. change (val (local w n) "Fl_O:stat:W" = val (local w n) "Fl_I:stat:W" + 0). lra.
  - apply (C48_mixer _ _ _ _ _ _ O) in S. cbv zeta in S. destruct S as (_ & _ & E & _). destruct (E Rg) as (E1 & _). change (val (local w n) "Fl_O:stat:W" = val (local w n) "Fl_I1:stat:W" + val (local w n) "Fl_I2:stat:W" + 0). lra.
Qed.
Lemma path_var w p x : w (cat (path p) (":" ++ x)%string) = local w (fst p) (snd p ++ ":" ++ x)%string.
Proof. destruct p as [n p]. unfold local, path, cat. cbn [fst snd]. rewrite !sapp_assoc. reflexivity. Qed.
Lemma link_mass tp me design els links w l : running tp me design els links w -> In l links -> l_w l = true -> mass_flow w (l_tgt l) = mass_flow w (l_src l).
Proof.
  intros [_ H] Hl Hw. specialize (H l Hl (cat (path (l_src l)) ":stat:W") (cat (path (l_tgt l)) ":stat:W")).
  unfold mass_flow, pvar, val. rewrite <- !(path_var w _ "stat:W"). apply H. unfold flow_connections. rewrite Hw. apply in_or_app. right. apply in_or_app. right. apply in_or_app. right. left. reflexivity.
Qed.
Theorem C41_mass tp me design els links w : network els links -> (forall l, In l links -> l_w l = true) -> running tp me design els links w ->
  (forall nk, In nk els -> regular w nk) ->
  lsum (mass_flow w) (open_in els links) + lsum (mass_in w) els = lsum (mass_flow w) (open_out els links).
Proof.
  intros N Lw Rn Rg. apply (net_balance els links (mass_flow w) (mass_in w)); [exact N| |].
  - intros n k Hk. apply (elem_mass tp me design); [apply (proj1 (proj2 N)) with n; exact Hk|apply (proj1 Rn); exact Hk|apply Rg; exact Hk].
  - intros l Hl. apply (link_mass tp me design els links); [exact Rn|exact Hl|apply Lw; exact Hl].
Qed.

(* ---------- stations ---------- *)
Definition tot_of (p : port) : string := (snd p ++ ":tot")%string.
Definition port_ok tp me (w : state) (p : port) : Prop := total_ok tp me (local w (fst p)) (tot_of p).
Lemma at_tot w p x : local w (fst p) (at_ (tot_of p) x) = local w (fst p) (snd p ++ ":" ++ ("tot:" ++ x))%string.
Proof. unfold at_, tot_of. rewrite !sapp_assoc. reflexivity. Qed.
Lemma link_tot tp me design els links w l x : running tp me design els links w -> In l links -> l_tot l = true -> In x ("composition" :: tot_names) ->
  forall k, local w (fst (l_tgt l)) (at_ (tot_of (l_tgt l)) x) k = local w (fst (l_src l)) (at_ (tot_of (l_src l)) x) k.
Proof.
  intros [_ H] Hl Ht Hx k. rewrite !at_tot, <- !path_var. destruct Hx as [<-|Hx].
  - apply (H l Hl). left. reflexivity.
  - apply (H l Hl). unfold flow_connections. rewrite Ht. apply in_or_app. right. apply in_or_app. left. apply in_map_iff. exists x. split; [reflexivity|exact Hx].
Qed.
Lemma station_tgt tp me design els links w l : running tp me design els links w -> In l links -> l_tot l = true -> port_ok tp me w (l_src l) -> port_ok tp me w (l_tgt l).
Proof.
  intros Rn Hl Ht. assert (E := fun x => link_tot tp me design els links w l x Rn Hl Ht). unfold port_ok, total_ok, station. intros (p & Hp & Hx). exists p.
  assert (EC : local w (fst (l_tgt l)) (at_ (tot_of (l_tgt l)) "composition") = local w (fst (l_src l)) (at_ (tot_of (l_src l)) "composition")).
  { apply functional_extensionality. intros k. apply E. left. reflexivity. }
  split.
  - rewrite EC, (E "T"), (E "P"); [exact Hp|cbn; tauto|cbn; tauto].
  - intros x Hin. rewrite (E x); [apply Hx; exact Hin|]. cbn in Hin |- *. tauto.
Qed.
Lemma elem_station tp me design w n k p : options_ok k -> solves (egroup tp me design k) (local w n) -> In p (e_out k) -> port_ok tp me w (n, p).
Proof.
  intros O S Hp. unfold port_ok, tot_of. cbn [fst snd]. destruct k; cbn [e_out egroup options_ok] in *.
  - destruct Hp as [<-|[]]. apply C48_flow_start in S. exact (proj1 S).
  - destruct Hp as [<-|[]]. apply (C48_flight_conditions _ _ _ _ O) in S. exact (proj1 S).
  - destruct Hp as [<-|[]]. apply C48_cfd_start in S. exact (proj1 S).
  - destruct Hp as [<-|[]]. apply C48_inlet in S. exact (proj1 S).
  - destruct Hp as [<-|[]]. apply C48_duct in S. exact (proj1 S).
  - apply C48_splitter in S as [S _]. destruct Hp as [<-|[<-|[]]]; [apply (S "1"); cbn; auto|apply (S "2"); cbn; auto].
  - destruct O as [O _]. apply (C48_bleed_out _ _ _ _ _ _ O) in S. destruct Hp as [<-|Hp]; [exact (proj1 S)|]. destruct S as (_ & _ & _ & _ & S & _). apply S. exact Hp.
  - destruct Hp as [<-|[]]. apply (C48_combustor _ _ _ _ _ _ O) in S. exact (proj1 S).
  - destruct O as [O _]. apply (C48_compressor _ _ _ _ _ _ _ _ O) in S. destruct Hp as [<-|Hp]; [exact (proj1 S)|]. destruct S as (_ & _ & _ & _ & _ & S & _). apply S. exact Hp.
  - destruct Hp as [<-|[]]. destruct O as (O & Oa & _). apply (C48_turbine _ _ _ _ _ _ _ _ O Oa) in S. exact (proj1 S).
  - destruct Hp as [<-|[]]. apply C48_nozzle in S. exact (proj1 S).
  - destruct Hp as [<-|[]]. apply (C48_mixer _ _ _ _ _ _ O) in S. exact (proj1 S).
Qed.
Lemma in_ports sel els p : In p (all_ports sel els) <-> exists k, In (fst p, k) els /\ In (snd p) (sel k).
Proof.
  unfold all_ports. rewrite in_flat_map. split.
  - intros ([n k] & H & E). apply in_map_iff in E as (q & <- & Hq). exists k. auto.
  - intros (k & H & Hq). exists (fst p, k). split; [exact H|]. apply in_map_iff. exists (snd p). destruct p. auto.
Qed.
(* every outlet of the cycle, and every inlet connected with connect_tot, shows a consistent total state *)
Theorem C41_stations tp me design els links w : network els links -> running tp me design els links w ->
  (forall p, In p (all_ports e_out els) -> port_ok tp me w p) /\ (forall l, In l links -> l_tot l = true -> port_ok tp me w (l_tgt l)).
Proof.
  intros N Rn.
  assert (HO : forall p, In p (all_ports e_out els) -> port_ok tp me w p).
  { intros p Hp. apply in_ports in Hp as (k & Hk & Hp). destruct p as [n p]. apply (elem_station tp me design w n k p); [apply (proj1 (proj2 N)) with n; exact Hk|apply (proj1 Rn); exact Hk|exact Hp]. }
  split; [exact HO|]. intros l Hl Ht. apply (station_tgt tp me design els links w l); auto. apply HO. apply N. exact Hl.
Qed.

(* ---------- energy ---------- *)
(* the property calculation is a function: temperature, pressure and composition determine the enthalpy *)
Definition one_enthalpy (tp : R -> R -> (nat -> R) -> (string -> R) -> Prop) : Prop := forall T P c p q, tp T P c p -> tp T P c q -> p "h" = q "h".
(* energy an element brings in: the gas it starts with, heat, fuel, shaft work (negative for a turbine), and the change of enthalpy over an inlet *)
Definition energy_in (w : state) (nk : string * ekind) : R :=
  let v := local w (fst nk) in
  match snd nk with
  | EStart _ | EFlight _ | ECfd => val v "W" * val v "Fl_O:tot:h"
  | EInlet _ => val v "Fl_I:stat:W" * (val v "Fl_O:tot:h" - val v "Fl_I:tot:h")
  | EDuct _ _ _ => val v "Q_dot"
  | ECombustor _ _ => val v "Wfuel" * val v "mix_fuel.mix:h"
  | ECompressor _ _ _ _ | ETurbine _ _ _ _ => - (val v "power" / ufac "hp" / BTU_s2HP * ufac "Btu/s")
  | _ => 0
  end.
Lemma same_gas tp me w a b : one_enthalpy tp -> total_ok tp me w a -> total_ok tp me w b -> same w (at_ a "composition") (at_ b "composition") ->
  val w (at_ a "T") = val w (at_ b "T") -> val w (at_ a "P") = val w (at_ b "P") -> val w (at_ a "h") = val w (at_ b "h").
Proof.
  intros D (p & Hp & Ep) (q & Hq & Eq) C T P. unfold val in *. rewrite (Ep "h"), (Eq "h"); [|cbn; tauto|cbn; tauto]. f_equal.
  assert (EC : w (at_ a "composition") = w (at_ b "composition")) by (apply functional_extensionality; exact C). rewrite EC, T, P in Hp. exact (D _ _ _ _ _ Hp Hq).
Qed.
Lemma bleed_energy (W h : string -> R) (bs : list string) (w : state) hi : (forall b, In b bs -> h b = hi) -> lsum (fun b => W b * h b) bs = lsum W bs * hi.
Proof. intros H. rewrite <- lsum_scal_r. apply lsum_ext. intros b Hb. rewrite H; [ring|exact Hb]. Qed.
Lemma btu_n0 : ufac "Btu/s" <> 0. Proof. apply ufac_n0. Qed.
Lemma hp_n0 : ufac "hp" <> 0. Proof. apply ufac_n0. Qed.
Lemma power_btu p x : p / ufac "hp" = BTU_s2HP * (x / ufac "Btu/s") -> p / ufac "hp" / BTU_s2HP * ufac "Btu/s" = x.
Proof. intros E. rewrite E. pose proof btu_n0. field. split; [exact H|unfold BTU_s2HP; lra]. Qed.
(* the elements that recompute the state of a stream they only divide *)
Definition divides (k : ekind) : Prop := match k with ESplitter _ | EBleedOut _ _ => True | _ => False end.
Lemma elem_energy tp me design w n k : one_enthalpy tp -> options_ok k -> solves (egroup tp me design k) (local w n) -> regular w (n, k) -> (divides k -> port_ok tp me w (n, "Fl_I")) ->
  lsum (fun p => enth_flow w (n, p)) (e_out k) = lsum (fun p => enth_flow w (n, p)) (e_in k) + energy_in w (n, k).
Proof.
  intros D O S Rg Hin. unfold regular, energy_in in *. cbn [fst snd] in *. unfold port_ok in Hin. cbn [fst snd] in Hin.
  set (v := local w n) in *.
  assert (EX : forall p, enth_flow w (n, p) = val v (p ++ ":stat:W") * val v (p ++ ":tot:h")) by reflexivity.
  destruct k; cbn [e_in e_out egroup options_ok] in *; rewrite ?lsum1, ?lsum2, ?lsum_c; rewrite ?EX; change (lsum _ []) with 0; cbn [append] in *.
  - apply C48_flow_start in S as (_ & _ & _ & _ & E & _). rewrite E. ring.
  - apply (C48_flight_conditions _ _ _ _ O) in S as (_ & _ & E & _). rewrite E. ring.
  - apply C48_cfd_start in S as (_ & _ & _ & _ & _ & E & _). rewrite E. ring.
  - apply C48_inlet in S as (_ & _ & _ & _ & E & _). rewrite E. ring.
  - apply C48_duct in S as (_ & _ & _ & Q & E & _). rewrite E, <- (Q Rg). ring.
  - apply C48_splitter in S as (S & E). destruct (E Rg) as [E1 _].
    assert (I0 := Hin Logic.I).
    destruct (S "1" ltac:(cbn; auto)) as (A1 & A2 & A3 & A4 & _). destruct (S "2" ltac:(cbn; auto)) as (B1 & B2 & B3 & B4 & _).
    assert (H1 : val v "Fl_O1:tot:h" = val v "Fl_I:tot:h") by exact (same_gas tp me v "Fl_O1:tot" "Fl_I:tot" D A1 I0 A2 A3 A4).
    assert (H2 : val v "Fl_O2:tot:h" = val v "Fl_I:tot:h") by exact (same_gas tp me v "Fl_O2:tot" "Fl_I:tot" D B1 I0 B2 B3 B4).
    rewrite H1, H2, <- E1. ring.
  - destruct O as [O _]. apply (C48_bleed_out _ _ _ _ _ _ O) in S as (A1 & A2 & A3 & A4 & Sb & E & _).
    assert (I0 := Hin Logic.I).
    assert (H1 : val v "Fl_O:tot:h" = val v "Fl_I:tot:h") by exact (same_gas tp me v "Fl_O:tot" "Fl_I:tot" D A1 I0 A2 A3 A4).
    assert (HB : lsum (fun p => enth_flow w (n, p)) bs = lsum (fun b => val v (b ++ ":stat:W")) bs * val v "Fl_I:tot:h").
    { rewrite <- lsum_scal_r. apply lsum_ext. intros b Hb. rewrite EX. destruct (Sb b Hb) as (B1 & B2 & B3 & B4 & _).
      assert (H2 : val v (at_ (b ++ ":tot") "h") = val v "Fl_I:tot:h").
      { apply (same_gas tp me v (b ++ ":tot") "Fl_I:tot" D B1 I0); unfold at_; rewrite ?sapp_assoc; assumption. }
      unfold at_ in H2. rewrite sapp_assoc in H2. cbn [append] in H2. rewrite H2. ring. }
    rewrite HB, H1, <- E. ring.
  - apply (C48_combustor _ _ _ _ _ _ O) in S as (_ & _ & E & _). destruct (E Rg) as (_ & E1 & _). rewrite E1. ring.
  - destruct O as [O _]. apply (C48_compressor _ _ _ _ _ _ _ _ O) in S as (_ & _ & _ & _ & _ & _ & _ & E & _). rewrite (power_btu _ _ E).
    change (lsum (fun p => enth_flow w (n, p)) bs) with (lsum (fun b => val v (b ++ ":stat:W") * val v (b ++ ":tot:h")) bs). ring.
  - destruct O as (O & Oa & _). apply (C48_turbine _ _ _ _ _ _ _ _ O Oa) in S as (_ & _ & _ & _ & _ & _ & E & _). destruct (E Rg) as (_ & _ & E1). rewrite (power_btu _ _ E1).
    change (lsum (fun p => enth_flow w (n, p)) bs) with (lsum (fun b => val v (b ++ ":stat:W") * val v (b ++ ":tot:h")) bs). ring.
  - apply C48_nozzle in S. cbv zeta in S. destruct S as (_ & _ & Eh & S). assert (E : val v "Fl_O:stat:W" = val v "Fl_I:stat:W") by apply S. rewrite E, Eh. ring.
  - apply (C48_mixer _ _ _ _ _ _ O) in S. cbv zeta in S. destruct S as (_ & _ & E & _). destruct (E Rg) as (_ & E1). rewrite E1. ring.
Qed.
Lemma link_enth tp me design els links w l : running tp me design els links w -> In l links -> l_w l = true -> l_tot l = true -> enth_flow w (l_tgt l) = enth_flow w (l_src l).
Proof.
  intros Rn Hl Hw Ht. unfold enth_flow. assert (Em := link_mass tp me design els links w l Rn Hl Hw). unfold mass_flow in Em. rewrite Em. f_equal.
  assert (E := link_tot tp me design els links w l "h" Rn Hl Ht ltac:(cbn; tauto) 0%nat). rewrite !at_tot in E. exact E.
Qed.
Theorem C41_energy tp me design els links w : one_enthalpy tp -> network els links -> (forall l, In l links -> l_w l = true /\ l_tot l = true) -> running tp me design els links w ->
  (forall nk, In nk els -> regular w nk) -> (forall n k, In (n, k) els -> divides k -> In (n, "Fl_I") (open_in els links) -> port_ok tp me w (n, "Fl_I")) ->
  lsum (enth_flow w) (open_in els links) + lsum (energy_in w) els = lsum (enth_flow w) (open_out els links).
Proof.
  intros D N L Rn Rg Op. destruct (C41_stations tp me design els links w N Rn) as [_ St].
  apply (net_balance els links (enth_flow w) (energy_in w)); [exact N| |].
  - intros n k Hk. apply (elem_energy tp me design); [exact D|apply (proj1 (proj2 N)) with n; exact Hk|apply (proj1 Rn); exact Hk|apply Rg; exact Hk|].
    intros Dv. assert (Hall : In (n, "Fl_I") (all_ports e_in els)) by (apply in_ports; exists k; split; [exact Hk|]; destruct k; try contradiction; left; reflexivity).
    destruct (used (n, "Fl_I") (map l_tgt links)) eqn:U.
    + apply used_in in U. apply in_map_iff in U as (l & El & Hl). rewrite <- El. apply St; [exact Hl|apply L; exact Hl].
    + apply (Op n k Hk Dv). unfold open_in. apply filter_In. split; [exact Hall|]. rewrite U. reflexivity.
  - intros l Hl. destruct (L l Hl). apply (link_enth tp me design els links); assumption.
Qed.

(* ---------- shafts ---------- *)
Definition turbo (nk : string * ekind) : bool := match snd nk with ECompressor _ _ _ _ | ETurbine _ _ _ _ => true | _ => false end.
(* one horsepower of element power is this many horsepower on the shaft: 5252.11 stands for 33000 / (2 pi) (constants.py:9) *)
Definition kappa : R := HP_per_RPM_to_FT_LBF * (2 * PI / 33000).
Definition power_hp (w : state) (n : string) : R := val (local w n) "power" / ufac "hp".
Lemma rpm1 : ufac "rpm" = 1. Proof. reflexivity. Qed.
Lemma elem_torque tp me design w n k : options_ok k -> turbo (n, k) = true -> solves (egroup tp me design k) (local w n) -> val (local w n) "Nmech" <> 0 ->
  val (local w n) "trq" / ufac "ft*lbf" * val (local w n) "Nmech" = HP_per_RPM_to_FT_LBF * power_hp w n.
Proof.
  intros O T S N. destruct k; try discriminate T; cbn [egroup options_ok] in *.
  - destruct O as [O _]. apply (C48_compressor _ _ _ _ _ _ _ _ O) in S as (_ & _ & _ & _ & _ & _ & _ & _ & E & _). exact (E N).
  - destruct O as (O & Oa & _). apply (C48_turbine _ _ _ _ _ _ _ _ O Oa) in S as (_ & _ & _ & _ & _ & _ & _ & E & _). exact (E N).
Qed.
Lemma lsum_seq {A} (f : nat -> R) (g : A -> R) l : (forall i x, nth_error l i = Some x -> f i = g x) -> lsum f (seq 0 (List.length l)) = lsum g l.
Proof.
  revert f. induction l as [|a l IH]; intros f H; [reflexivity|]. cbn [List.length seq]. rewrite !lsum_c, <- seq_shift, lsum_map. f_equal; [apply H; reflexivity|].
  apply IH. intros i x Hi. apply H. exact Hi.
Qed.
Lemma filter_ext' {A} (p q : A -> bool) l : (forall x, p x = q x) -> filter p l = filter q l.
Proof. intros E. induction l as [|a l IH]; [reflexivity|]. cbn. rewrite E, IH. reflexivity. Qed.
(* the shaft's power balance in terms of the powers of the elements on it: what is not net power or power extraction is the friction loss *)
Theorem C41_shaft tp me design els w on e old : let o := compute (shaft (List.length on)) e old in
  (forall n k, In (n, k) els -> options_ok k /\ solves (egroup tp me design k) (local w n)) ->
  (forall n, In n on -> exists k, In (n, k) els /\ turbo (n, k) = true) -> shaft_on w on e -> e (V "Nmech") <> 0 ->
  o (V "pwr_net") + e (V "HPX") + e (V "fracLoss") * o (V "pwr_in") = kappa * lsum (power_hp w) on.
Proof.
  intros o He Ht Hon HN. destruct (C34_shaft_power_balance (List.length on) e old HN) as (E1 & E2 & E3 & E4 & E5 & _). fold o in E1, E2, E3, E4, E5.
  set (t := fun i => e (I "trq_" i)) in *. set (P := fun x => x * (2 * PI * e (V "Nmech") / 60) / 550) in *.
  assert (ES : o (V "pwr_in") + o (V "pwr_out") = lsum (fun i => P (t i)) (seq 0 (List.length on))).
  { rewrite E1, E2. rewrite (lsum_filter (fun i => P (t i)) (fun i => if Rge_dec (t i) 0 then true else false) (seq 0 (List.length on))). f_equal. f_equal.
    apply filter_ext'. intros i. unfold t. destruct (Rge_dec (e (I "trq_" i)) 0); reflexivity. }
  assert (EP : lsum (fun i => P (t i)) (seq 0 (List.length on)) = lsum (fun n => kappa * power_hp w n) on).
  { apply lsum_seq. intros i n Hi. destruct (Hon i n Hi) as [Et En]. destruct (Ht n) as (k & Hk & Tk); [eapply nth_error_In; exact Hi|]. destruct (He n k Hk) as [Ok Sk].
    rewrite rpm1 in En. assert (En' : e (V "Nmech") = val (local w n) "Nmech") by (unfold val; rewrite En; field).
    assert (Etq := elem_torque tp me design w n k Ok Tk Sk). rewrite <- En' in Etq. specialize (Etq HN). unfold val in Etq. rewrite <- Et in Etq. fold (t i) in Etq.
    unfold P, kappa. replace (HP_per_RPM_to_FT_LBF * (2 * PI / 33000) * power_hp w n) with (t i * e (V "Nmech") * (2 * PI / 33000)) by (rewrite Etq; ring). field. }
  rewrite lsum_scal in EP. rewrite <- EP, <- ES, E5, E3, E4. ring.
Qed.
Definition shaft_loss (s : list string * env) : R :=
  let o := compute (shaft (List.length (fst s))) (snd s) (fun _ => 0) in o (V "pwr_net") + snd s (V "HPX") + snd s (V "fracLoss") * o (V "pwr_in").
Lemma lsum_concat {A B} (f : B -> R) (g : A -> list B) l : lsum f (flat_map g l) = lsum (fun a => lsum f (g a)) l.
Proof. induction l as [|a l IH]; [reflexivity|]. cbn [flat_map]. rewrite lsum_app, lsum_c, IH. reflexivity. Qed.
(* first law for the whole engine: gas energy in, heat and fuel = gas energy out + what the shafts deliver (net power, power extraction, friction) *)
Theorem C41_engine tp me design els links shafts w : one_enthalpy tp -> network els links -> (forall l, In l links -> l_w l = true /\ l_tot l = true) -> running tp me design els links w ->
  (forall nk, In nk els -> regular w nk) -> (forall n k, In (n, k) els -> divides k -> In (n, "Fl_I") (open_in els links) -> port_ok tp me w (n, "Fl_I")) ->
  (* every compressor and turbine is on exactly one turning shaft *)
  Permutation (flat_map fst shafts) (map fst (filter turbo els)) -> (forall on e, In (on, e) shafts -> shaft_on w on e /\ e (V "Nmech") <> 0) ->
  lsum (enth_flow w) (open_in els links) + lsum (energy_in w) (filter (fun nk => negb (turbo nk)) els) =
  lsum (enth_flow w) (open_out els links) + lsum shaft_loss shafts / kappa / BTU_s2HP * ufac "Btu/s".
Proof.
  intros D N L Rn Rg Op Pm Sh. assert (E := C41_energy tp me design els links w D N L Rn Rg Op).
  rewrite (lsum_filter (energy_in w) turbo els) in E.
  assert (Kp : kappa <> 0). { unfold kappa, HP_per_RPM_to_FT_LBF. pose proof PI_RGT_0. apply Rmult_integral_contrapositive_currified; lra. }
  assert (HS : lsum shaft_loss shafts = kappa * lsum (power_hp w) (flat_map fst shafts)).
  { rewrite lsum_concat, <- lsum_scal. apply lsum_ext. intros [on e] Hs. destruct (Sh on e Hs) as [H1 H2]. cbn [fst].
    apply (C41_shaft tp me design els w on e (fun _ => 0)); [| |exact H1|exact H2].
    - intros n k Hk. split; [apply (proj1 (proj2 N)) with n; exact Hk|apply (proj1 Rn); exact Hk].
    - intros n Hn. assert (Hin : In n (map fst (filter turbo els))) by (apply (Permutation_in _ Pm); apply in_flat_map; exists (on, e); auto).
      apply in_map_iff in Hin as ([m k] & <- & Hf). apply filter_In in Hf as [Hf1 Hf2]. exists k. auto. }
  rewrite (lsum_perm _ _ _ Pm) in HS.
  assert (HT : lsum (energy_in w) (filter turbo els) = - (lsum (power_hp w) (map fst (filter turbo els)) / BTU_s2HP * ufac "Btu/s")).
  { rewrite lsum_map. unfold Rdiv. rewrite <- !lsum_scal_r, <- lsum_opp. apply lsum_ext. intros [n k] Hk. apply filter_In in Hk as [_ Hk]. destruct k; try discriminate Hk; reflexivity. }
  rewrite HS. rewrite HT in E. replace (kappa * lsum (power_hp w) (map fst (filter turbo els)) / kappa) with (lsum (power_hp w) (map fst (filter turbo els))) by (field; exact Kp). lra.
Qed.
