(* C68 machinery: a design state carried over to the off-design point of the same engine. *)
From Coq Require Import FunctionalExtensionality Lia.
From Verif Require Import Lib_R Lib_Loop Spec_Wire Model_Thermo Proofs_Wire Prop_Static Prop_Thermo Prop_Elem1 Model_Elem1 Model_Elem2 Proofs_Elem Proofs_Elem2 Prop_Station Prop_Station2 Prop_Station3 Prop_Station8 Model_Cycle Prop_Cycle Proofs_OD Prop_OD Prop_Map Prop_OD2 Prop_OD3 Model_Shaft Model_Examples Data_Examples Prop_Examples Prop_Examples2 Model_Multi.
Open Scope string_scope. Open Scope list_scope. Open Scope R_scope.

(* ---------- one element ---------- *)
(* what C54 needs of the design state of an element: gas flows, the map point is not degenerate, the mixing plane has two moving streams *)
Definition runs (k : ekind) (v : state) : Prop :=
  match k with
  | EStart _ | EFlight _ | ECfd | ENozzle _ _ => True
  | EInlet _ | EBleedOut _ _ | ECombustor _ _ => flowing v "Fl_O:tot" "Fl_O:stat"
  | EDuct _ with_MN _ => flowing v "Fl_O:tot" "Fl_O:stat" /\ (with_MN = true -> 0 < val v "Fl_I:stat:MN")
  | ESplitter _ => flowing v "Fl_O1:tot" "Fl_O1:stat" /\ flowing v "Fl_O2:tot" "Fl_O2:stat"
  | ECompressor _ _ _ _ => flowing v "Fl_O:tot" "Fl_O:stat" /\ val v "map.NcMap" <> 0 /\ val v "map.PRmap" <> 1 /\ val v "map.effMap" <> 0 /\ val v "map.WcMap" <> 0
  | ETurbine _ _ _ _ => flowing v "Fl_O:tot" "Fl_O:stat" /\ val v "map.NpMap" <> 0 /\ val v "map.PRmap" <> 1 /\ val v "map.effMap" <> 0 /\ val v "map.WpMap" <> 0
  | EMixer _ one => if one then entering v "Fl_I1_calc:stat" "Fl_I1:tot" else entering v "Fl_I2_calc:stat" "Fl_I2:tot"
  end.
Definition class_conns (c : eclass) : list (string * string) :=
  match c with
  | XFlight _ | XNozzle _ _ => []
  | XInlet | XDuct _ | XBleedOut _ | XCombustor _ => area_conns
  | XSplitter => split_conns | XCompressor _ => comp_conns | XTurbine _ => turb_conns | XMixer one => mix_conns one
  end.
Definition bleeds_b (c : eclass) : bool :=
  match c with XTurbine bs => forallb (fun b => if contains "." b then false else if String.eqb b "map" then false else negb (String.eqb b "out_stat")) bs | _ => true end.
Lemma carry_nil w : carry [] w = w. Proof. reflexivity. Qed.
Lemma element_od tp me c k v : tp_local tp -> is_class c k -> bleeds_b c = true -> runs k v -> solves (egroup tp me true k) v -> solves (egroup tp me false k) (carry (class_conns c) v).
Proof.
  intros L C B Rn S. destruct c as [[[rt ra]|]| |ex| |bs|fuel|bs|bs|nt lc|one]; cbn in C; unclass C; cbn [runs egroup class_conns] in *.
  - exact S.
  - exact S.
  - apply C54_inlet; assumption.
  - destruct Rn as [R1 R2]. apply C54_duct; assumption.
  - destruct Rn. apply C54_splitter; assumption.
  - apply C54_bleed_out; assumption.
  - apply C54_combustor; assumption.
  - destruct Rn as (R1 & R2 & R3 & R4 & R5). apply C54_compressor; assumption.
  - destruct Rn as (R1 & R2 & R3 & R4 & R5). apply C54_turbine; try assumption. intros y Hy. cbn in B. rewrite forallb_forall in B. specialize (B y Hy).
    destruct (contains "." y); [discriminate|]. destruct (String.eqb y "map") eqn:E1; [discriminate|]. apply String.eqb_neq in E1. destruct (String.eqb y "out_stat") eqn:E2; [discriminate|]. apply String.eqb_neq in E2. auto.
  - exact S.
  - exact (proj1 (C54_mixer tp me _ one v L Rn S)).
Qed.

(* ---------- one gearbox ---------- *)
Lemma gear_od e : e (V "N_in") <> 0 -> balanced (gearbox true) e -> balanced (gearbox false) e.
Proof.
  intros N H o Ho. assert (H1 := H (V "gear_ratio") ltac:(cbn; tauto)). assert (H2 := H (V "trq_in") ltac:(cbn; tauto)). assert (H3 := H (V "trq_out") ltac:(cbn; tauto)).
  cbn [gearbox compute] in *. unfold gb_resid in *. cbv zeta in *. revert H1 H2 H3. vsimp. intros H1 H2 H3.
  assert (G : e (V "gear_ratio") = e (V "N_out") / e (V "N_in")) by lra.
  cbn in Ho. destruct Ho as [<-|[<-|[<-|[]]]]; vsimp.
  - rewrite G. field. exact N.
  - rewrite G. rewrite <- H2. field. exact N.
  - exact H3.
Qed.

(* ---------- names ---------- *)
Inductive src := SV (x : string) | SC (d : dec).
Definition ev (w : state) (s : src) : nat -> R := match s with SV x => w x | SC d => fun _ => dR d end.
Definition tv (T : list (string * src)) (x : string) : src := match find (fun p => String.eqb (fst p) x) T with Some p => snd p | None => SV x end.
(* the off-design state: variables listed in T get the value of a design variable, or a constant; all others keep their value *)
Definition moved (T : list (string * src)) (w : state) : state := fun x => ev w (tv T x).
Definition dotted_name (n x : string) : string := (n ++ "." ++ x)%string.
Definition elem_T (nc : string * eclass) : list (string * src) := map (fun p => (dotted_name (fst nc) (snd p), SV (dotted_name (fst nc) (fst p)))) (class_conns (snd nc)).
Definition under (n : string) (T : list (string * src)) : list (string * src) := filter (fun p => prefix (n ++ ".") (fst p)) T.
Definition dec_eqb (a b : dec) : bool := if Z.eqb (fst a) (fst b) then Z.eqb (snd a) (snd b) else false.
Definition src_eqb (a b : src) : bool := match a, b with SV x, SV y => String.eqb x y | SC x, SC y => dec_eqb x y | _, _ => false end.
Lemma dec_eqb_eq a b : dec_eqb a b = true -> a = b.
Proof. destruct a, b. unfold dec_eqb. cbn. destruct (Z.eqb_spec z z1); [|discriminate]. intros H. apply Z.eqb_eq in H. congruence. Qed.
Lemma src_eqb_eq a b : src_eqb a b = true -> a = b.
Proof. destruct a, b; cbn; intros H; try discriminate; [apply String.eqb_eq in H|apply dec_eqb_eq in H]; congruence. Qed.
Fixpoint list_eqb {A} (e : A -> A -> bool) (l m : list A) : bool := match l, m with [], [] => true | a :: l, b :: m => if e a b then list_eqb e l m else false | _, _ => false end.
Lemma list_eqb_eq {A} (e : A -> A -> bool) : (forall a b, e a b = true -> a = b) -> forall l m, list_eqb e l m = true -> l = m.
Proof. intros He. induction l as [|a l IH]; intros [|b m] H; cbn in H; try discriminate; [reflexivity|]. destruct (e a b) eqn:E; [|discriminate]. rewrite (He _ _ E), (IH _ H). reflexivity. Qed.
Definition entry_eqb (a b : string * src) : bool := if String.eqb (fst a) (fst b) then src_eqb (snd a) (snd b) else false.
Lemma entry_eqb_eq a b : entry_eqb a b = true -> a = b.
Proof. destruct a, b. unfold entry_eqb. cbn. destruct (String.eqb_spec s s1); [|discriminate]. intros H. apply src_eqb_eq in H. congruence. Qed.
Lemma find_under n x T : find (fun p => String.eqb (fst p) (dotted_name n x)) T = find (fun p => String.eqb (fst p) (dotted_name n x)) (under n T).
Proof.
  unfold under. induction T as [|[y s] T IH]; [reflexivity|]. cbn [find filter fst]. destruct (String.eqb_spec y (dotted_name n x)) as [->|N].
  - replace (prefix (n ++ ".") (dotted_name n x)) with true by (unfold dotted_name; rewrite <- sapp_assoc; symmetry; apply prefix_app). cbn [find fst]. rewrite String.eqb_refl. reflexivity.
  - destruct (prefix (n ++ ".") y); [|exact IH]. cbn [find fst]. destruct (String.eqb_spec y (dotted_name n x)); [contradiction|exact IH].
Qed.
Lemma local_moved n c T w : under n T = elem_T (n, c) -> local (moved T w) n = carry (class_conns c) (local w n).
Proof.
  intros E. apply functional_extensionality. intros x. unfold local at 1, moved, tv. change (n ++ "." ++ x)%string with (dotted_name n x). rewrite find_under, E. unfold elem_T, carry. cbn [fst snd].
  induction (class_conns c) as [|[a b] l IH]; [reflexivity|]. cbn [map find fst snd].
  replace (String.eqb (dotted_name n b) (dotted_name n x)) with (String.eqb b x); [destruct (String.eqb b x); [reflexivity|exact IH]|].
  destruct (String.eqb_spec b x) as [->|N]; [rewrite String.eqb_refl; reflexivity|]. symmetry. apply String.eqb_neq. intros H. apply N. unfold dotted_name in H. apply sapp_inj in H. apply sapp_inj in H. exact H.
Qed.
Lemma local_same n T w : under n T = [] -> local (moved T w) n = local w n.
Proof. intros E. apply functional_extensionality. intros x. unfold local at 1, moved, tv. change (n ++ "." ++ x)%string with (dotted_name n x). rewrite find_under, E. reflexivity. Qed.

(* ---------- equal by construction: following connections back to their source ---------- *)
Fixpoint root (E : list (string * string)) (fuel : nat) (x : string) : string :=
  match fuel with O => x | S f => match find (fun p => String.eqb (snd p) x) E with Some p => root E f (fst p) | None => x end end.
Lemma root_ok (w : state) i E : (forall a b, In (a, b) E -> w b i = w a i) -> forall fuel x, w (root E fuel x) i = w x i.
Proof.
  intros H. induction fuel as [|f IH]; intros x; [reflexivity|]. cbn [root]. destruct (find _ E) as [[a b]|] eqn:F; [|reflexivity].
  apply find_some in F as [F1 F2]. cbn in F2. apply String.eqb_eq in F2. subst b. rewrite IH. symmetry. apply H. exact F1.
Qed.
Definition depth := 8%nat.
Definition roots E (s : src) : src := match s with SV x => SV (root E depth x) | SC d => SC d end.
Lemma roots_ok w i E s : (forall a b, In (a, b) E -> w b i = w a i) -> ev w (roots E s) i = ev w s i.
Proof. intros H. destruct s; cbn [roots ev]; [apply root_ok; exact H|reflexivity]. Qed.
(* all the equations between variables that a converged cycle satisfies *)
Definition edges (x : example) : list (string * string) :=
  x_conns x ++ map (fun p => (snd (snd p), dotted_name (fst p) (fst (snd p)))) (x_promos x) ++
  flat_map (fun l => flow_connections (path (l_src l)) (path (l_tgt l)) (l_stat l) (l_tot l) (l_w l)) (x_links x).
Lemma edges_hold tp x els w : cycle_converged tp x els w -> forall a b, In (a, b) (edges x) -> forall i, w b i = w a i.
Proof.
  intros C a b H i. unfold edges in H. apply in_app_iff in H as [H|H]; [exact (cv_conn _ _ _ _ C _ _ H i)|]. apply in_app_iff in H as [H|H].
  - apply in_map_iff in H as ([n [v t]] & E & H). cbn in E. injection E as <- <-. exact (cv_promo _ _ _ _ C _ _ _ H i).
  - apply in_flat_map in H as (l & Hl & H). exact (proj2 (cv_run _ _ _ _ C) l Hl a b H i).
Qed.

(* ---------- the checks ---------- *)
Section Check.
Variables (xd xo : example) (T : list (string * src)) (extra : list (string * string)) (special : list string).
Definition eq_b (E : list (string * string)) (a b : src) : bool := src_eqb (roots E a) (roots E b).
Definition edges_b : bool := let E := edges xd in forallb (fun p => eq_b E (tv T (fst p)) (tv T (snd p))) (edges xo).
Definition names_b : bool :=
  if forallb (fun nc => list_eqb entry_eqb (under (fst nc) T) (elem_T nc)) (x_els xo) then
  if forallb (fun nk => list_eqb entry_eqb (under (fst nk) T) []) (x_shafts xo) then
  if forallb (fun n => list_eqb entry_eqb (under n T) []) (x_gears xo) then forallb (fun nk => list_eqb entry_eqb (under (fst nk) T) []) (x_perfs xo) else false else false else false.
Definition b_mult (b : xbal) := ("balance.mult:" ++ xb_name b)%string.
Definition b_lhs (b : xbal) := ("balance.lhs:" ++ xb_name b)%string.
Definition b_rhs (b : xbal) := ("balance." ++ xb_rhs b)%string.
Definition bal1_b (E : list (string * string)) (b : xbal) : bool :=
  if existsb (String.eqb (xb_name b)) special then true else
  if (if eq_b E (tv T (b_lhs b)) (tv T (b_rhs b)) then if xb_mult b then src_eqb (tv T (b_mult b)) (SC (1, 0)%Z) else true else false) then true else
  existsb (fun d => if Bool.eqb (xb_mult b) (xb_mult d) then if eq_b E (tv T (b_lhs b)) (SV (b_lhs d)) then if eq_b E (tv T (b_rhs b)) (SV (b_rhs d)) then
      if xb_mult b then eq_b E (tv T (b_mult b)) (SV (b_mult d)) else true else false else false else false) (x_bals xd).
Definition bals_b : bool := let E := edges xd ++ extra in forallb (bal1_b E) (x_bals xo).
Definition free_b : bool := forallb (fun f => match tv T (fst f) with
  | SC d => if String.eqb (fst (snd f)) "" then dec_eqb d (snd (snd f)) else false
  | SV v => existsb (fun g => if String.eqb (fst g) v then if String.eqb (fst (snd g)) (fst (snd f)) then dec_eqb (snd (snd g)) (snd (snd f)) else false else false) (x_free xd) end) (x_free xo).
Hypothesis Hels : x_els xo = x_els xd.
Hypothesis Hmeth : x_method xo = x_method xd.
Hypothesis Hsh : x_shafts xo = x_shafts xd.
Hypothesis Hge : x_gears xo = x_gears xd.
Hypothesis Hpe : x_perfs xo = x_perfs xd.
Hypothesis Hd : x_design xd = true.
Hypothesis Ho : x_design xo = false.
Lemma eq_ok w i E a b : (forall a b, In (a, b) E -> w b i = w a i) -> eq_b E a b = true -> ev w a i = ev w b i.
Proof. intros H K. unfold eq_b in K. apply src_eqb_eq in K. rewrite <- (roots_ok w i E a H), <- (roots_ok w i E b H), K. reflexivity. Qed.
Theorem moved_converged tp els w : tp_local tp -> builds xd els -> cycle_converged tp xd els w -> (forall n k, In (n, k) els -> runs k (local w n)) ->
  (forall n, In n (x_gears xd) -> local w n "N_in" 0%nat <> 0) ->
  (forall a b, In (a, b) extra -> w b 0%nat = w a 0%nat) ->
  (forall b, In b (x_bals xo) -> In (xb_name b) special -> (if xb_mult b then ev w (tv T (b_mult b)) 0%nat else 1) * ev w (tv T (b_lhs b)) 0%nat = ev w (tv T (b_rhs b)) 0%nat) ->
  forallb (fun nc => bleeds_b (snd nc)) (x_els xd) = true -> edges_b = true -> names_b = true -> bals_b = true -> free_b = true ->
  cycle_converged tp xo els (moved T w).
Proof.
  intros L B C Rn Gn Hx Hsp HB HE HN HBal HF.
  assert (Eo : forall a b, In (a, b) (edges xo) -> forall i, moved T w b i = moved T w a i).
  { intros a b H i. unfold edges_b in HE. cbv zeta in HE. rewrite forallb_forall in HE. specialize (HE _ H). cbn [fst snd] in HE. unfold moved. symmetry. apply (eq_ok w i (edges xd)); [|exact HE].
    intros a' b' H'. exact (edges_hold _ _ _ _ C a' b' H' i). }
  assert (N := HN). unfold names_b in N. stepk N N1. stepk N N2. stepk N N3. rewrite forallb_forall in N1, N2, N3, N.
  constructor.
  - split.
    + intros n k Hn. rewrite Hmeth, Ho.
      assert (exists c, In (n, c) (x_els xd) /\ is_class c k) as (c & Hc & Ck).
      { clear - B Hn. unfold builds in B. revert Hn. induction B as [|[n1 c1] [n2 k2] l els [E C] _ IH]; intros Hn; [contradiction Hn|]. cbn in E, C. subst n2. destruct Hn as [Hn|Hn].
        - injection Hn as <- <-. exists c1. split; [left; reflexivity|exact C].
        - destruct (IH Hn) as (c & H1 & H2). exists c. split; [right; exact H1|exact H2]. }
      rewrite forallb_forall in HB. rewrite (local_moved n c); [|apply (list_eqb_eq _ entry_eqb_eq); apply (N1 (n, c)); rewrite Hels; exact Hc].
      apply element_od; try assumption; [exact (HB _ Hc)|apply Rn; exact Hn|]. rewrite <- Hd. apply (proj1 (cv_run _ _ _ _ C) n k Hn).
    + intros l Hl a b H i. apply Eo. unfold edges. apply in_or_app. right. apply in_or_app. right. apply in_flat_map. exists l. auto.
  - intros a b H i. apply Eo. unfold edges. apply in_or_app. left. exact H.
  - intros n v a H i. unfold local. apply (Eo a (dotted_name n v)). unfold edges. apply in_or_app. right. apply in_or_app. left. apply in_map_iff. exists (n, (v, a)). auto.
  - intros n k H. unfold comp_env. rewrite (local_same n) by (apply (list_eqb_eq _ entry_eqb_eq); exact (N2 _ H)). apply (cv_shaft _ _ _ _ C). rewrite <- Hsh. exact H.
  - intros n H. unfold comp_env. rewrite (local_same n) by (apply (list_eqb_eq _ entry_eqb_eq); exact (N3 _ H)). rewrite Ho. rewrite Hge in H.
    apply gear_od; [|rewrite <- Hd; exact (cv_gear _ _ _ _ C n H)]. cbn [gb_unit]. intros K. apply (Gn n H). assert (U := ufac_n0 (gb_unit "N_in")).
    replace (local w n "N_in" 0%nat) with (local w n "N_in" 0%nat / ufac (gb_unit "N_in") * ufac (gb_unit "N_in")) by (field; exact U). change (local w n "N_in" 0%nat / ufac (gb_unit "N_in") = 0) in K. rewrite K. ring.
  - intros n i j H. unfold comp_env. rewrite (local_same n) by (apply (list_eqb_eq _ entry_eqb_eq); exact (N _ H)). apply (cv_perf _ _ _ _ C). rewrite <- Hpe. exact H.
  - intros b H. unfold bals_b in HBal. cbv zeta in HBal. rewrite forallb_forall in HBal. specialize (HBal _ H). unfold bal1_b in HBal. set (E := edges xd ++ extra) in *.
    assert (HEd : forall a b, In (a, b) E -> w b 0%nat = w a 0%nat). { intros a' b' H'. apply in_app_iff in H' as [H'|H']; [exact (edges_hold _ _ _ _ C a' b' H' 0%nat)|exact (Hx _ _ H')]. }
    change ((if xb_mult b then ev w (tv T (b_mult b)) 0%nat else 1) * ev w (tv T (b_lhs b)) 0%nat = ev w (tv T (b_rhs b)) 0%nat).
    destruct (existsb (String.eqb (xb_name b)) special) eqn:Sp.
    { apply Hsp; [exact H|]. apply existsb_exists in Sp as (s & Hs & Es). apply String.eqb_eq in Es. rewrite Es. exact Hs. }
    match type of HBal with (if ?b then true else _) = true => destruct b eqn:T1 end.
    + stepk T1 X1. apply (eq_ok w 0%nat E _ _ HEd) in X1. rewrite X1. destruct (xb_mult b); [|ring]. apply src_eqb_eq in T1. rewrite T1. cbn [ev]. unfold dR. cbn. ring.
    + apply existsb_exists in HBal as (d & Hdin & K). assert (Cb := cv_bal _ _ _ _ C d Hdin). stepk K X1. stepk K X2. stepk K X3. apply Bool.eqb_prop in X1.
      apply (eq_ok w 0%nat E _ _ HEd) in X2. apply (eq_ok w 0%nat E _ _ HEd) in X3. rewrite X2, X3. rewrite X1 in *. destruct (xb_mult d).
      * apply (eq_ok w 0%nat E _ _ HEd) in K. rewrite K. exact Cb.
      * exact Cb.
  - intros v u d H. unfold free_b in HF. rewrite forallb_forall in HF. specialize (HF _ H). cbn [fst snd] in HF. unfold moved. destruct (tv T v) as [y|d'] eqn:Ty; cbn [ev].
    + apply existsb_exists in HF as ([g [u' d']] & Hg & K). cbn [fst snd] in K. stepk K X1. stepk K X2. apply String.eqb_eq in X1. apply String.eqb_eq in X2. apply dec_eqb_eq in K. subst. exact (cv_free _ _ _ _ C _ _ _ Hg).
    + stepk HF X1. apply String.eqb_eq in X1. apply dec_eqb_eq in HF. subst. cbn. ring.
Qed.
End Check.
