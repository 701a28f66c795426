(* Claim C65: the shipped thermochemical data are physical, and claims C61-C63 hold for every Properties object made from them. *)
From Coq Require Import ZArith Lia FunctionalExtensionality Sorting.Sorted.
From Verif Require Import Lib_Py Lib_R Lib_Loop Proofs_Poly Model_Species Data_Thermo Proofs_Species Prop_Species Prop_Data.
From Verif Require Import Spec_Wire Model_Thermo Proofs_Wire Prop_Thermo Model_Equil Proofs_Equil Proofs_Props Proofs_Thermo Prop_Equil Model_Cea Proofs_Cea Proofs_Stable Prop_Cea.
Open Scope string_scope. Open Scope list_scope. Open Scope R_scope.

(* ---------- decimals as integers ---------- *)
Definition sc (d : dec) : Z := (fst d * 10 ^ (snd d + 40))%Z.
Definition decZ (d : dec) : Z := (fst d * 10 ^ snd d)%Z.
Lemma powerRZ_Z z : (0 <= z)%Z -> powerRZ 10 z = IZR (10 ^ z)%Z.
Proof.
  intros H. rewrite <- (Z2Nat.id z) by exact H. rewrite <- pow_powerRZ. rewrite pow_IZR. reflexivity.
Qed.
Lemma sc_R d : (-40 <= snd d)%Z -> IZR (sc d) = dR d * 10 ^ 40.
Proof.
  intros H. unfold sc, dR. rewrite mult_IZR, <- powerRZ_Z by lia. rewrite powerRZ_add by lra. rewrite Rmult_assoc. do 2 f_equal.
Qed.
Lemma decZ_R d : (0 <= snd d)%Z -> IZR (decZ d) = dR d.
Proof. intros H. unfold decZ, dR. rewrite mult_IZR, <- powerRZ_Z by lia. reflexivity. Qed.
(* T^2 (Cp0 - c), as an integer polynomial times 10^-40 *)
Definition cp_poly (c : Z) (r : list dec) : list Z :=
  match map sc r with a0 :: a1 :: a2 :: a3 :: a4 :: a5 :: a6 :: _ => [a0; a1; (a2 - c * 10 ^ 40)%Z; a3; a4; a5; a6] | _ => [] end.
Lemma cp_poly_R c r T : (7 <= List.length r)%nat -> (forall d, In d r -> (-40 <= snd d)%Z) -> T <> 0 -> peval (cp_poly c r) T = 10 ^ 40 * T ^ 2 * (Cp0_row (map dR r) T - IZR c).
Proof.
  intros HL HE HT. do 7 (destruct r as [|? r]; [cbn in HL; lia|]). unfold cp_poly. cbn [map]. cbn [peval]. rewrite minus_IZR, mult_IZR. rewrite <- (powerRZ_Z 40) by lia.
  replace (powerRZ 10 40) with (10 ^ 40) by (rewrite (pow_powerRZ 10 40); reflexivity). rewrite !sc_R by (apply HE; cbn; tauto).
  unfold Cp0_row, cf. cbn [map nth]. set (K := 10 ^ 40). field. exact HT.
Qed.
Fixpoint rows_above (c : Z) (rs : list (list dec)) (rg : list dec) : bool :=
  match rs, rg with r :: rs', lo :: ((hi :: _) as rg') => if pos_auto 12 (cp_poly c r) (decZ lo) (decZ hi - decZ lo) then rows_above c rs' rg' else false | _, _ => true end.
Definition exps_ok (s : spD) : bool :=
  forallb (fun r => Nat.leb 7 (List.length r) && forallb (fun d => Z.leb (-40) (snd d)) r) (d_coeffs s) && forallb (fun d => Z.leb 0 (snd d) && Z.ltb 0 (fst d)) (d_ranges s).
Lemma rows_above_ok c rs rg : rows_above c rs rg = true -> forallb (fun r => Nat.leb 7 (List.length r) && forallb (fun d => Z.leb (-40) (snd d)) r) rs = true ->
  forallb (fun d => Z.leb 0 (snd d) && Z.ltb 0 (fst d)) rg = true -> forall k T, (k < List.length rs)%nat -> (S k < List.length rg)%nat ->
  nth k (map dR rg) 0 <= T <= nth (S k) (map dR rg) 0 -> 0 < T -> IZR c < Cp0_row (nth k (map (map dR) rs) []) T.
Proof.
  revert rg. induction rs as [|r rs IH]; intros rg H Hr Hg k T K1 K2 HT T0; [cbn in K1; lia|].
  destruct rg as [|lo [|hi rg]]; [cbn in K2; lia|cbn in K2; lia|]. cbn [rows_above] in H.
  destruct (pos_auto _ _ _ _) eqn:E; [|discriminate]. cbn [forallb] in Hr. apply andb_true_iff in Hr as [R1 R2]. apply andb_true_iff in R1 as [R0 R1]. apply Nat.leb_le in R0. rewrite forallb_forall in R1.
  destruct k as [|k].
  - cbn [map nth] in *. cbn [forallb] in Hg. rewrite !andb_true_iff in Hg. destruct Hg as [[G1 _] [[G2 _] _]]. apply Z.leb_le in G1, G2.
    pose proof (pos_auto_ok _ _ _ _ T E) as Q. rewrite minus_IZR, !decZ_R in Q by assumption. specialize (Q ltac:(lra)).
    rewrite cp_poly_R in Q; [|exact R0|intros d Hd; apply Z.leb_le, R1; exact Hd|lra].
    apply Rminus_gt_0_lt. apply (Rmult_lt_reg_l (10 ^ 40 * T ^ 2)); [apply Rmult_lt_0_compat; [apply pow_lt; lra|apply pow_lt; lra]|]. rewrite Rmult_0_r. exact Q.
  - cbn [map nth List.length] in *. apply (IH (hi :: rg) H R2); [cbn [forallb] in Hg |- *; apply andb_true_iff in Hg; apply Hg|lia|cbn [List.length]; lia|exact HT|exact T0].
Qed.
(* what is checked of the data *)
Definition sp_check (s : spD) : bool :=
  exps_ok s && rows_above 2 (d_coeffs s) (d_ranges s) && Z.leb (decZ (hd (0, 0)%Z (d_ranges s))) 201 && Z.leb 6000 (decZ (last (d_ranges s) (0, 0)%Z)) &&
  forallb (fun d => Z.eqb (decZ d) 999 || Z.eqb (decZ d) 1000 || Z.eqb (decZ d) 6000) (removelast (tl (d_ranges s))).
Lemma all_checked : forallb (fun sd => forallb (fun kv => sp_check (snd kv)) (d_products sd)) shipped_specs = true.
Proof. vm_compute. reflexivity. Qed.
(* ---------- the products of a Properties object over shipped data ---------- *)
Lemma mk_products sp d p : mk_properties sp (Some d) = Ok p -> List.length (p_species p) = List.length (p_products p) /\
  (forall j, (j < List.length (p_products p))%nat -> exists n s, In (n, s) (products sp) /\ nth j (p_species p) sp0 = s /\
     (forall e, In e (dkeys (sp_elems s)) -> In e (p_elements p)) /\
     forall i, (i < List.length (p_elements p))%nat -> nth j (nth i (p_aij p) []) 0 = dgetd (sp_elems s) (nth i (p_elements p) "") 0).
Proof.
  unfold mk_properties. cbv zeta. destruct (forallb _ _); [|discriminate]. destruct (get_all _ _) as [wts|]; [|discriminate]. injection 1 as <-.
  cbn [p_elements p_products p_species p_aij]. rewrite !map_length. split; [reflexivity|]. intros j Hj. set (els := sorted (dkeys d)) in *.
  set (pr := filter (fun np => formable els (snd np)) (products sp)) in *. destruct (nth j pr ("", sp0)) as [n s] eqn:E.
  assert (K : In (n, s) pr) by (rewrite <- E; apply nth_In; exact Hj). apply filter_In in K as [K1 K2]. exists n, s. split; [exact K1|]. split; [|split].
  - change sp0 with (snd ("", sp0)). rewrite map_nth, E. reflexivity.
  - intros e He. cbn [snd] in K2. unfold formable in K2. rewrite forallb_forall in K2. apply str_in_iff, K2, He.
  - intros i Hi. rewrite (nth_indep _ [] (map (fun np => dgetd (sp_elems (snd np)) "" 0) pr)) by (rewrite map_length; auto).
    rewrite (map_nth (fun e => map (fun np => dgetd (sp_elems (snd np)) e 0) pr)).
    rewrite (nth_indep _ 0 (dgetd (sp_elems (snd ("", sp0))) (nth i els "") 0)) by (rewrite map_length; auto).
    rewrite (map_nth (fun np => dgetd (sp_elems (snd np)) (nth i els "") 0)), E. reflexivity.
Qed.
Lemma product_wf ws s : product_ok ws s -> wf_species s.
Proof.
  intros (H1 & H2 & H3 & _ & H5 & _). split; [lia|]. split; [lia|]. split; [|intros r Hr; rewrite (H5 r Hr); lia].
  clear -H3. induction H3 as [|x l Hs IH Hx]; intros i j Hij; [cbn in Hij; lia|]. destruct j as [|j]; [lia|]. destruct i as [|i]; cbn [nth].
  - rewrite Forall_forall in Hx. apply Hx, nth_In. cbn in Hij. lia.
  - apply IH. cbn in Hij. lia.
Qed.
Section Shipped.
Variables (sd : specD) (d : dict R) (p : props).
Hypothesis Hsd : In sd shipped_specs.
Hypothesis Hp : mk_properties (specR sd) (Some d) = Ok p.
Lemma sh_product j : (j < List.length (p_products p))%nat -> exists n sD, In (n, sD) (d_products sd) /\ nth j (p_species p) sp0 = spR sD /\ sp_check sD = true /\ product_ok (element_wts (specR sd)) (spR sD).
Proof.
  intros Hj. destruct (mk_products _ _ _ Hp) as [_ K]. destruct (K j Hj) as (n & s & H1 & H2 & _). pose proof H1 as H1'. cbn [specR products] in H1. apply in_map_iff in H1 as [[n' sD] [E H1]]. injection E as <- <-.
  exists n', sD. split; [exact H1|]. split; [exact H2|]. split.
  - pose proof all_checked as C. rewrite forallb_forall in C. specialize (C sd Hsd). cbv beta in C. rewrite forallb_forall in C. exact (C _ H1).
  - destruct (C46_thermo_data sd Hsd) as (_ & _ & K2 & _). exact (K2 _ _ H1').
Qed.
Lemma sh_wf s : In s (p_species p) -> wf_species s.
Proof.
  intros Hs. destruct (mk_products _ _ _ Hp) as [HL _]. apply In_nth with (d := sp0) in Hs as (j & Hj & <-). rewrite HL in Hj. destruct (sh_product j Hj) as (n & sD & _ & -> & _ & K). eapply product_wf; eassumption.
Qed.
(* the ends and the junctions of the fits *)
Lemma last_map {A B} (f : A -> B) l a : last (map f l) (f a) = f (last l a).
Proof. induction l as [|x [|y r] IH]; [reflexivity|reflexivity|]. cbn [map last] in *. exact IH. Qed.
Lemma interior {A} (l : list A) k a : (0 < k)%nat -> (S k < List.length l)%nat -> In (nth k l a) (removelast (tl l)).
Proof.
  destruct l as [|x l]; [cbn; lia|]. cbn [tl]. destruct k as [|k]; [lia|]. cbn [nth List.length]. intros _ H.
  revert k H. induction l as [|y l IH]; intros k H; [cbn in H; lia|]. destruct l as [|z l]; [cbn in H; lia|]. cbn [removelast]. destruct k as [|k]; [left; reflexivity|right]. cbn [nth]. apply IH. cbn [List.length] in *. lia.
Qed.
Lemma sh_ranges j : (j < List.length (p_products p))%nat -> let tr := sp_ranges (nth j (p_species p) sp0) in
  nth 0 tr 0 <= 201 /\ 6000 <= last tr 0 /\ (forall T, breakpoint (nth j (p_species p) sp0) T -> T = 999 \/ T = 1000 \/ T = 6000) /\ forall t, In t tr -> 0 < t.
Proof.
  intros Hj. destruct (sh_product j Hj) as (n & sD & _ & E & C & O). rewrite E. cbv zeta.
  unfold sp_check in C. rewrite !andb_true_iff in C. destruct C as [[[[C1 _] C3] C4] C5]. apply andb_true_iff in C1 as [_ C1]. rewrite forallb_forall in C1.
  assert (Z0 : forall z, In z (d_ranges sD) -> IZR (decZ z) = dR z) by (intros z Hz; apply decZ_R; specialize (C1 z Hz); apply andb_true_iff in C1 as [C1 _]; apply Z.leb_le, C1).
  assert (HL : d_ranges sD <> []). { destruct O as (O1 & O2 & _). cbn [spR sp_ranges] in O1. intros Q. rewrite Q in O1. cbn in O1. lia. }
  apply Z.leb_le in C3, C4. apply IZR_le in C3, C4. split; [|split; [|split]].
  - cbn [spR sp_ranges]. destruct (d_ranges sD) as [|a l]; [congruence|]. cbn [map nth hd] in *. rewrite Z0 in C3 by (left; reflexivity). exact C3.
  - cbn [spR sp_ranges]. replace 0 with (dR (0, 0)%Z) by (unfold dR; cbn; ring). rewrite last_map. rewrite Z0 in C4; [exact C4|].
    destruct (exists_last HL) as (l & a & El). rewrite El, last_last. apply in_or_app. right. left. reflexivity.
  - intros T (k & K1 & K2 & ->). cbn [spR sp_ranges] in *. rewrite map_length in K2. replace 0 with (dR (0, 0)%Z) by (unfold dR; cbn; ring). rewrite map_nth.
    pose proof (interior (d_ranges sD) k (0, 0)%Z K1 K2) as I1. rewrite forallb_forall in C5. specialize (C5 _ I1). rewrite !orb_true_iff in C5.
    assert (I2 : In (nth k (d_ranges sD) (0, 0)%Z) (d_ranges sD)) by (apply nth_In; lia). rewrite <- (Z0 _ I2).
    destruct C5 as [[C5|C5]|C5]; apply Z.eqb_eq in C5; rewrite C5; lra.
  - intros t Ht. apply O. exact Ht.
Qed.
Lemma sh_positions j T : (j < List.length (p_products p))%nat -> nth 0 (sp_ranges (nth j (p_species p) sp0)) 0 <= T <= last (sp_ranges (nth j (p_species p) sp0)) 0 ->
  forall hist q, exists k, (S k < List.length (sp_ranges (nth j (p_species p) sp0)))%nat /\ nth k (sp_ranges (nth j (p_species p) sp0)) 0 <= T <= nth (S k) (sp_ranges (nth j (p_species p) sp0)) 0 /\
    answer (p_species p) hist q T j = q_row q (nth k (sp_coeffs (nth j (p_species p) sp0)) []) T.
Proof.
  intros Hj HT hist q. destruct (mk_products _ _ _ Hp) as [HL _]. destruct (answer_segment (p_species p) hist q T j sh_wf ltac:(lia)) as (k & K1 & K2 & K3). exists k. split; [exact K1|]. split; [|exact K2].
  set (tr := sp_ranges (nth j (p_species p) sp0)) in *. assert (Lst : last tr 0 = nth (List.length tr - 1) tr 0).
  { destruct tr as [|x l]; [reflexivity|]. destruct (exists_last (l := x :: l) ltac:(discriminate)) as (l' & a & El). rewrite El, last_last, app_length. cbn [List.length]. rewrite app_nth2 by lia. replace (List.length l' + 1 - 1 - List.length l')%nat with 0%nat by lia. reflexivity. }
  destruct (sh_wf (nth j (p_species p) sp0) ltac:(apply nth_In; lia)) as (W1 & W2 & W3 & _). fold tr in W1, W2, W3.
  destruct K3 as [(S1 & S2 & S3)|[K3 ->]].
  - split; [destruct S2 as [->|S2]; lra|]. destruct S3 as [S3|S3]; [|exact S3]. replace (S k) with (List.length tr - 1)%nat by lia. rewrite <- Lst. lra.
  - split; [lra|]. left. apply W3. lia.
Qed.
(* C65: the heat capacity of every species exceeds 2 R over the whole range of its fits *)
Theorem C65_heat_capacity hist j T : (j < List.length (p_products p))%nat ->
  nth 0 (sp_ranges (nth j (p_species p) sp0)) 0 <= T <= last (sp_ranges (nth j (p_species p) sp0)) 0 -> 2 < answer (p_species p) hist QCp0 T j.
Proof.
  intros Hj HT. destruct (sh_positions j T Hj HT hist QCp0) as (k & K1 & K2 & ->). cbn [q_row].
  assert (T0 : 0 < T). { destruct (sh_ranges j Hj) as (_ & _ & _ & Pos). assert (0 < nth 0 (sp_ranges (nth j (p_species p) sp0)) 0) by (apply Pos, nth_In; lia). lra. }
  destruct (sh_product j Hj) as (n & sD & _ & E & C & O). rewrite E in *. unfold sp_check in C. rewrite !andb_true_iff in C. destruct C as [[[[C1 C2] _] _] _]. apply andb_true_iff in C1 as [C0 C1].
  destruct O as (O1 & _). cbn [spR sp_ranges sp_coeffs] in *. rewrite !map_length in *. exact (rows_above_ok 2 _ _ C2 C0 C1 k T ltac:(lia) ltac:(lia) K2 T0).
Qed.

(* the gas the chemical equilibrium works with, after any history of calls *)
Theorem C65_gas_ok hist : p_products p <> [] -> gas_ok (gas_of p hist).
Proof.
  intros Hne. split; [cbn [gas_of np]; destruct (p_products p); [congruence|cbn; lia]|]. cbn [gas_of np ne aij]. intros j Hj.
  destruct (mk_products _ _ _ Hp) as [_ K]. destruct (K j Hj) as (n & s & H1 & _ & H3 & H4). destruct (C46_thermo_data sd Hsd) as (_ & _ & K2 & _).
  destruct (K2 _ _ H1) as (_ & _ & _ & _ & _ & _ & NE & ND & KP).
  assert (Pos : forall e, 0 <= dgetd (sp_elems s) e 0). { intros e. unfold dgetd. destruct (dget (sp_elems s) e) as [v|] eqn:D; [|lra]. left. apply dget_In in D. apply (KP e v D). }
  split; [intros i Hi; rewrite H4 by exact Hi; apply Pos|].
  destruct (sp_elems s) as [|[e v] r] eqn:E; [congruence|]. assert (He : In e (p_elements p)) by (apply H3; left; reflexivity).
  apply In_nth with (d := "") in He as (i & Hi & Ei). exists i. split; [exact Hi|]. rewrite H4 by exact Hi. rewrite Ei. unfold dgetd. cbn [dget]. rewrite String.eqb_refl.
  destruct (KP e v (or_introl eq_refl)) as [V0 _]. lra.
Qed.
(* enthalpy, entropy and heat capacity belong together wherever two fits do not meet *)
Theorem C65_proper hist T1 T2 : (201 <= T1 /\ T2 < 999) \/ (1000 < T1 /\ T2 < 6000) -> proper_between (gas_of p hist) T1 T2.
Proof.
  intros HT T Ht j Hj. destruct (mk_products _ _ _ Hp) as [HL _].
  destruct (C24_species_functions p hist T sh_wf HL ltac:(lra)) as [C _].
  - intros i Hi Hb. rewrite HL in Hi. destruct (sh_ranges i Hi) as (_ & _ & B & _). apply B in Hb. lra.
  - destruct (C j Hj) as [A B]. split; [exact A|]. split; [exact B|]. destruct (sh_ranges j Hj) as (L1 & L2 & _). pose proof (C65_heat_capacity hist j T Hj ltac:(lra)) as K.
    change (0 < answer (p_species p) hist QCp0 T j). lra.
Qed.
Lemma sh_cp hist T j : 201 <= T <= 6000 -> (j < np (gas_of p hist))%nat -> 1 < Cp0 (gas_of p hist) j T.
Proof. intros HT Hj. destruct (sh_ranges j Hj) as (L1 & L2 & _). pose proof (C65_heat_capacity hist j T Hj ltac:(lra)) as K. change (1 < answer (p_species p) hist QCp0 T j). lra. Qed.
(* the property calculation with the shipped data, after any history, is a function of temperature, pressure and composition *)
Theorem C61_shipped hist T P c a b : p_products p <> [] -> cea_tp (gas_of p hist) T P c a -> cea_tp (gas_of p hist) T P c b ->
  forall x, In x ["h"; "S"; "gamma"; "Cp"; "Cv"; "rho"; "R"] -> a x = b x.
Proof. intros Hne Ha Hb. exact (C61_function _ T P c c a b (C65_gas_ok hist Hne) Ha Hb (fun _ _ => eq_refl)). Qed.
(* between the junctions of the fits, enthalpy and entropy increase with temperature *)
Theorem C62_shipped hist T1 T2 P c a b : p_products p <> [] -> (201 <= T1 /\ T2 < 999) \/ (1000 < T1 /\ T2 < 6000) -> T1 < T2 ->
  cea_tp (gas_of p hist) T1 P c a -> cea_tp (gas_of p hist) T2 P c b -> a "h" < b "h" /\ a "S" < b "S".
Proof. intros Hne HT Hlt Ha Hb. exact (C62_increasing _ T1 T2 P c a b (C65_gas_ok hist Hne) ltac:(lra) (C65_proper hist T1 T2 HT) Ha Hb). Qed.
(* stability from 201 K to 6000 K *)
Theorem C63_shipped hist T P c a : p_products p <> [] -> 201 <= T <= 6000 -> cea_tp (gas_of p hist) T P c a -> 0 < a "Cv" /\ a "Cv" <= a "Cp" /\ 0 < a "gamma".
Proof.
  intros Hne HT Ha. destruct (C63_stable _ T P c a (C65_gas_ok hist Hne) Ha (fun j Hj => sh_cp hist T j HT Hj)) as (A & B & C & _). auto.
Qed.
End Shipped.
