(* Claim C62 across the junction of the fits at 1000 K, for the shipped janaf and wet_air data: enthalpy and entropy cannot agree at temperatures 1 K apart. *)
From Coq Require Import ZArith Lia FunctionalExtensionality Sorting.Sorted.
From Verif Require Import Lib_Py Lib_R Lib_Loop Proofs_Poly Model_Species Data_Thermo Proofs_Species Prop_Species Prop_Data.
From Verif Require Import Spec_Wire Model_Thermo Proofs_Wire Prop_Thermo Model_Equil Proofs_Equil Proofs_Props Proofs_Thermo Prop_Equil Model_Cea Proofs_Cea Proofs_Stable Prop_Cea Proofs_Ln Proofs_Cross Prop_Shipped.
Open Scope string_scope. Open Scope list_scope. Open Scope R_scope.

(* 60000000 10^40 times the value at 1000 K of H0 and of H0 - S0 is A + B ln 1000 *)
Definition hA (r : list Z) : Z := match r with a0 :: a1 :: a2 :: a3 :: a4 :: a5 :: a6 :: a7 :: _ =>
  (-60 * a0 + 60000000 * a2 + 30000000000 * a3 + 20000000000000 * a4 + 15000000000000000 * a5 + 12000000000000000000 * a6 + 60000 * a7)%Z | _ => 0%Z end.
Definition hB (r : list Z) : Z := match r with _ :: a1 :: _ => (60000 * a1)%Z | _ => 0%Z end.
Definition sA (r : list Z) : Z := match r with a0 :: a1 :: a2 :: a3 :: a4 :: a5 :: a6 :: _ :: a8 :: _ =>
  (-30 * a0 - 60000 * a1 + 60000000000 * a3 + 30000000000000 * a4 + 20000000000000000 * a5 + 15000000000000000000 * a6 + 60000000 * a8)%Z | _ => 0%Z end.
Definition sB (r : list Z) : Z := match r with _ :: _ :: a2 :: _ => (60000000 * a2)%Z | _ => 0%Z end.
Lemma hAB_R r : (9 <= List.length r)%nat -> (forall d, In d r -> (-40 <= snd d)%Z) -> 60000000 * 10 ^ 40 * H0_row (map dR r) 1000 = IZR (hA (map sc r)) + IZR (hB (map sc r)) * ln 1000.
Proof.
  intros HL HE. do 9 (destruct r as [|? r]; [cbn in HL; lia|]). cbn [map hA hB]. rewrite !plus_IZR, !mult_IZR. rewrite !sc_R by (apply HE; cbn; tauto).
  unfold H0_row, cf. cbn [map nth]. set (K := 10 ^ 40). field.
Qed.
Lemma sAB_R r : (9 <= List.length r)%nat -> (forall d, In d r -> (-40 <= snd d)%Z) -> 60000000 * 10 ^ 40 * S0_row (map dR r) 1000 = IZR (sA (map sc r)) + IZR (sB (map sc r)) * ln 1000.
Proof.
  intros HL HE. do 9 (destruct r as [|? r]; [cbn in HL; lia|]). cbn [map sA sB]. rewrite !plus_IZR, minus_IZR, !mult_IZR. rewrite !sc_R by (apply HE; cbn; tauto).
  unfold S0_row, cf. cbn [map nth]. set (K := 10 ^ 40). field.
Qed.
(* |A + B ln 1000| <= 3 10^40, that is, a jump of at most 5e-8 *)
Definition small (A B : Z) : bool := Z.leb (Z.abs (A * 10 ^ 12 + B * 6907755278970) + 20 * Z.abs B) (3 * 10 ^ 52).
Lemma small_R A B x : small A B = true -> 60000000 * 10 ^ 40 * x = IZR A + IZR B * ln 1000 -> Rabs x <= jump.
Proof.
  unfold small. intros H E. apply Z.leb_le in H. pose proof ln_1000 as [L1 L2].
  assert (Q : Rabs (IZR A + IZR B * ln 1000) <= 3 * 10 ^ 40).
  { set (l := 6907755278970 / 10 ^ 12) in *. replace (IZR A + IZR B * ln 1000) with ((IZR A + IZR B * l) + IZR B * (ln 1000 - l)) by ring. eapply Rle_trans; [apply Rabs_triang|].
    rewrite Rabs_mult. assert (D : Rabs (ln 1000 - l) <= 20 / 10 ^ 12). { rewrite Rabs_pos_eq by lra. replace (6907755278990 / 10 ^ 12) with (l + 20 / 10 ^ 12) in L2 by (unfold l; field). lra. }
    assert (D2 : Rabs (IZR B) * Rabs (ln 1000 - l) <= Rabs (IZR B) * (20 / 10 ^ 12)) by (apply Rmult_le_compat_l; [apply Rabs_pos|exact D]).
    apply IZR_le in H. rewrite plus_IZR, !mult_IZR, !abs_IZR, plus_IZR, !mult_IZR in H. rewrite <- !powerRZ_Z in H by lia. change (powerRZ 10 12) with (10 ^ 12) in H. change (powerRZ 10 52) with (10 ^ 52) in H.
    assert (E1 : IZR A + IZR B * l = (IZR A * 10 ^ 12 + IZR B * 6907755278970) * / 10 ^ 12) by (unfold l; field).
    rewrite E1, Rabs_mult. rewrite (Rabs_pos_eq (/ 10 ^ 12)) by (left; apply Rinv_0_lt_compat, pow_lt; lra).
    replace (3 * 10 ^ 40) with (3 * 10 ^ 52 * / 10 ^ 12) by (field). assert (I0 : 0 < / 10 ^ 12) by (apply Rinv_0_lt_compat, pow_lt; lra).
    apply (Rmult_le_compat_r (/ 10 ^ 12)) in H; [|lra]. unfold Rdiv in D2. lra. }
  rewrite <- E in Q. rewrite Rabs_mult, (Rabs_pos_eq (60000000 * 10 ^ 40)) in Q by (apply Rmult_le_pos; [lra|apply pow_le; lra]).
  unfold jump. assert (P4 : 0 < 10 ^ 40) by (apply pow_lt; lra). apply (Rmult_le_reg_l (60000000 * 10 ^ 40)); [lra|]. lra.
Qed.
Definition rows_meet (r0 r1 : list Z) : bool :=
  if small (hA r1 - hA r0) (hB r1 - hB r0) then small ((hA r1 - sA r1) - (hA r0 - sA r0)) ((hB r1 - sB r1) - (hB r0 - sB r0)) else false.
Definition sp_meets (s : spD) : bool :=
  match d_coeffs s, d_ranges s with
  | r0 :: r1 :: _, t0 :: t1 :: t2 :: _ => Z.eqb (decZ t0) 200 && Z.eqb (decZ t1) 1000 && Z.eqb (decZ t2) 6000 && Nat.leb 9 (List.length r0) && Nat.leb 9 (List.length r1) && rows_meet (map sc r0) (map sc r1)
  | _, _ => false end.
Lemma all_meet : forallb (fun sd => forallb (fun kv => sp_meets (snd kv)) (d_products sd)) [janaf_dec; wet_air_dec] = true.
Proof. vm_compute. reflexivity. Qed.
Lemma rows_meet_R r0 r1 : (9 <= List.length r0)%nat -> (9 <= List.length r1)%nat -> (forall d, In d (r0 ++ r1) -> (-40 <= snd d)%Z) -> rows_meet (map sc r0) (map sc r1) = true ->
  Rabs (H0_row (map dR r1) 1000 - H0_row (map dR r0) 1000) <= jump /\
  Rabs ((H0_row (map dR r1) 1000 - S0_row (map dR r1) 1000) - (H0_row (map dR r0) 1000 - S0_row (map dR r0) 1000)) <= jump.
Proof.
  intros L0 L1 E H. unfold rows_meet in H. destruct (small _ _) eqn:S1; [|discriminate].
  assert (E0 : forall d, In d r0 -> (-40 <= snd d)%Z) by (intros; apply E, in_or_app; auto). assert (E1 : forall d, In d r1 -> (-40 <= snd d)%Z) by (intros; apply E, in_or_app; auto).
  pose proof (hAB_R r0 L0 E0). pose proof (hAB_R r1 L1 E1). pose proof (sAB_R r0 L0 E0). pose proof (sAB_R r1 L1 E1). split.
  - eapply small_R; [exact S1|]. rewrite !minus_IZR. lra.
  - eapply small_R; [exact H|]. rewrite !minus_IZR. lra.
Qed.
Lemma fin_choice (n : nat) (Q : nat -> nat -> Prop) : (forall j, (j < n)%nat -> exists k, Q j k) -> exists f, forall j, (j < n)%nat -> Q j (f j).
Proof.
  induction n as [|n IH]; intros H; [exists (fun _ => 0%nat); lia|]. destruct IH as [f Hf]; [intros; apply H; lia|]. destruct (H n ltac:(lia)) as [k Hk].
  exists (fun j => if Nat.eqb j n then k else f j). intros j Hj. destruct (Nat.eqb j n) eqn:E; [apply Nat.eqb_eq in E; subst; exact Hk|]. apply Nat.eqb_neq in E. apply Hf. lia.
Qed.
Section Across.
Variables (sd : specD) (d : dict R) (p : props).
Hypothesis Hsd : In sd [janaf_dec; wet_air_dec].
Hypothesis Hp : mk_properties (specR sd) (Some d) = Ok p.
Lemma Hsd' : In sd shipped_specs. Proof. cbn in Hsd |- *. tauto. Qed.
Definition row (j k : nat) : list R := nth k (sp_coeffs (nth j (p_species p) sp0)) [].
Lemma sh2 j : (j < List.length (p_products p))%nat -> let tr := sp_ranges (nth j (p_species p) sp0) in
  nth 0 tr 0 = 200 /\ nth 1 tr 0 = 1000 /\ nth 2 tr 0 = 6000 /\ (3 <= List.length tr)%nat /\ (forall i k, (i < k < List.length tr)%nat -> nth i tr 0 < nth k tr 0) /\
  (forall k T, (k < 2)%nat -> nth k tr 0 <= T <= nth (S k) tr 0 -> 2 < Cp0_row (row j k) T) /\
  Rabs (H0_row (row j 1) 1000 - H0_row (row j 0) 1000) <= jump /\
  Rabs ((H0_row (row j 1) 1000 - S0_row (row j 1) 1000) - (H0_row (row j 0) 1000 - S0_row (row j 0) 1000)) <= jump.
Proof.
  intros Hj. destruct (sh_product sd d p Hsd' Hp j Hj) as (n & sD & HI & E & C & O). pose proof (product_wf _ _ O) as W.
  pose proof all_meet as M. rewrite forallb_forall in M. specialize (M sd Hsd). cbv beta in M. rewrite forallb_forall in M. specialize (M _ HI). cbn [snd] in M.
  unfold row. rewrite E. cbv zeta. unfold sp_check in C. rewrite !andb_true_iff in C. destruct C as [[[[C1 C2] _] _] _]. apply andb_true_iff in C1 as [C0 C1].
  destruct O as (O1 & _). destruct W as (_ & _ & W & _). cbn [spR sp_ranges sp_coeffs] in *. rewrite !map_length in *.
  unfold sp_meets in M. destruct (d_coeffs sD) as [|r0 [|r1 rs]] eqn:Ec; try discriminate. destruct (d_ranges sD) as [|t0 [|t1 [|t2 ts]]] eqn:Er; try discriminate.
  rewrite !andb_true_iff in M. destruct M as [[[[[M0 M1] M2] L0] L1] M3]. apply Z.eqb_eq in M0, M1, M2. apply Nat.leb_le in L0, L1.
  assert (Z0 : forall z, In z (t0 :: t1 :: t2 :: ts) -> IZR (decZ z) = dR z) by (intros z Hz; apply decZ_R; rewrite forallb_forall in C1; specialize (C1 z Hz); apply andb_true_iff in C1 as [C1 _]; apply Z.leb_le, C1).
  assert (D0 : dR t0 = 200) by (rewrite <- Z0, M0 by (cbn; tauto); reflexivity). assert (D1 : dR t1 = 1000) by (rewrite <- Z0, M1 by (cbn; tauto); reflexivity). assert (D2 : dR t2 = 6000) by (rewrite <- Z0, M2 by (cbn; tauto); reflexivity).
  cbn [map nth]. split; [exact D0|]. split; [exact D1|]. split; [exact D2|]. split; [cbn [List.length]; lia|]. split; [intros i k Hik; apply W; rewrite map_length; exact Hik|]. split; [|].
  - intros k T Hk HT. change (map dR r0 :: map dR r1 :: map (map dR) rs) with (map (map dR) (r0 :: r1 :: rs)).
    apply (rows_above_ok 2 (r0 :: r1 :: rs) (t0 :: t1 :: t2 :: ts) C2 C0 C1 k T); [cbn [List.length]; lia|cbn [List.length]; lia|exact HT|]. destruct k as [|[|k]]; [cbn [map nth] in HT; lra|cbn [map nth] in HT; lra|lia].
  - apply rows_meet_R; auto. intros z Hz. cbn [forallb] in C0. rewrite !andb_true_iff in C0. destruct C0 as [[_ K0] [[_ K1] _]]. rewrite forallb_forall in K0, K1. apply Z.leb_le. apply in_app_or in Hz as [Hz|Hz]; auto.
Qed.
(* the fit a species uses at T, the same for every function *)
Lemma rows_at hist T j : 200 <= T < 6000 -> (j < List.length (p_products p))%nat ->
  exists k, (k = 0%nat /\ T <= 1000 \/ k = 1%nat /\ 1000 <= T) /\ forall q, answer (p_species p) hist q T j = q_row q (row j k) T.
Proof.
  intros HT Hj. destruct (mk_products _ _ _ Hp) as [HL _]. destruct (sh2 j Hj) as (R0 & R1 & R2 & RL & RA & _).
  assert (WF := sh_wf sd d p Hsd' Hp). assert (E := ensure_rows (p_species p) WF T _ (calls_ok (p_species p) WF hist _ (init_ok (p_species p) WF))).
  assert (L := Forall2_len _ _ _ E). destruct (Forall2_nth_r _ _ _ j [] sp0 E ltac:(lia)) as [k [K1 [K2 K3]]]. set (tr := sp_ranges (nth j (p_species p) sp0)) in *.
  exists k. split.
  - assert (Up : forall i, (2 <= i < List.length tr)%nat -> 6000 <= nth i tr 0). { intros i Hi. destruct (Nat.eq_dec i 2) as [->|]; [lra|]. rewrite <- R2. left. apply RA. lia. }
    destruct K3 as [(S1 & S2 & S3)|[K3 K4]].
    + destruct k as [|[|k]]; [left; split; [reflexivity|]; destruct S3 as [S3|S3]; [lia|lra]|right; split; [reflexivity|]; destruct S2 as [S2|S2]; [lia|lra]|].
      exfalso. destruct S2 as [S2|S2]; [lia|]. pose proof (Up (S (S k)) ltac:(lia)). lra.
    + destruct k as [|[|k]]; [lia|right; split; [reflexivity|lra]|]. exfalso. pose proof (Up (S (S k)) ltac:(lia)). lra.
  - intros q. unfold answer, call. cbv zeta. cbn [fst]. rewrite (nth_indep _ 0 (q_row q [] T)) by (rewrite map_length; lia).
    rewrite (map_nth (fun a => q_row q a T)). apply q_row_ext. exact K2.
Qed.
(* the gas whose species each use one fit at all temperatures *)
Definition row_gas (ks : nat -> nat) : gas :=
  mkGas (List.length (p_products p)) (List.length (p_elements p)) (fun i j => nth j (nth i (p_aij p) []) 0)
    (fun j T => H0_row (row j (ks j)) T) (fun j T => S0_row (row j (ks j)) T) (fun j T => Cp0_row (row j (ks j)) T)
    (fun j T => H0_J_row (row j (ks j)) T) (fun j T => S0_J_row (row j (ks j)) T) (fun j T => Cp0_J_row (row j (ks j)) T).
Lemma row_ok ks : p_products p <> [] -> gas_ok (row_gas ks).
Proof. intros H. exact (C65_gas_ok sd d p Hsd' Hp [] H). Qed.
Lemma row_above ks a b : 200 <= a -> b <= 6000 -> (forall j, (j < List.length (p_products p))%nat -> ks j = 0%nat /\ b <= 1000 \/ ks j = 1%nat /\ 1000 <= a) -> above2 (row_gas ks) a b.
Proof.
  intros Ha Hb Hk T HT. split.
  - intros j Hj. destruct (fit_derivs (row j (ks j)) T ltac:(lra)) as (F1 & F2 & _). split; apply is_derive_Reals; assumption.
  - intros j Hj. cbn [row_gas np Cp0] in *. destruct (sh2 j Hj) as (R0 & R1 & R2 & RL & _ & RC & _). destruct (Hk j Hj) as [[-> B]|[-> B]]; apply RC; try lia; lra.
Qed.
Lemma row_meet k1 k2 : (forall j, (j < List.length (p_products p))%nat -> (k1 j < 2)%nat /\ (k2 j < 2)%nat) -> nearly_meet (row_gas k1) (row_gas k2).
Proof.
  intros Hk. split; [reflexivity|]. intros j Hj. cbn [row_gas np H0 S0] in *. destruct (sh2 j Hj) as (_ & _ & _ & _ & _ & _ & J1 & J2). destruct (Hk j Hj) as [A B].
  assert (J0 : 0 <= jump) by (unfold jump; lra).
  destruct (k1 j) as [|[|k]]; [| |lia]; (destruct (k2 j) as [|[|k']]; [| |lia]); cbn [Nat.eqb];
    first [split; assumption | rewrite !Rminus_eq_0, Rabs_R0; split; exact J0 | split; [rewrite Rabs_minus_sym; exact J1|rewrite Rabs_minus_sym; exact J2]].
Qed.
Lemma gas_rows hist T : 200 <= T < 6000 -> exists ks, (forall j, (j < List.length (p_products p))%nat -> ks j = 0%nat /\ T <= 1000 \/ ks j = 1%nat /\ 1000 <= T) /\ same_at (gas_of p hist) (row_gas ks) T.
Proof.
  intros HT. destruct (fin_choice (List.length (p_products p)) (fun j k => (k = 0%nat /\ T <= 1000 \/ k = 1%nat /\ 1000 <= T) /\ forall q, answer (p_species p) hist q T j = q_row q (row j k) T)) as [ks Hks]; [intros j Hj; apply rows_at; auto|].
  exists ks. split; [intros j Hj; apply Hks; exact Hj|]. split; [reflexivity|]. intros j Hj. destruct (Hks j Hj) as [_ A].
  split; symmetry; [exact (A QH0)|exact (A QS0)].
Qed.
Lemma regular_side hist T1 T2 : 200 <= T1 -> T2 < 6000 -> (T2 < 1000 \/ 1000 < T1) -> regular_on (gas_of p hist) T1 T2.
Proof.
  intros H1 H2 Hs T HT. destruct (mk_products _ _ _ Hp) as [HL _].
  destruct (C24_species_functions p hist T (sh_wf sd d p Hsd' Hp) HL ltac:(lra)) as [C _].
  - intros i Hi (k & K1 & K2 & E). rewrite HL in Hi. destruct (sh2 i Hi) as (R0 & R1 & R2 & RL & RA & _). destruct k as [|[|k]]; [lia|lra|].
    assert (6000 <= T); [|lra]. rewrite E. destruct k as [|k]; [lra|]. rewrite <- R2. left. apply RA. lia.
  - split; [exact C|]. intros j Hj. destruct (sh2 j Hj) as (R0 & R1 & R2 & RL & RA & RC & _). destruct (rows_at hist T j ltac:(lra) Hj) as (k & Hk & A).
    change (0 < answer (p_species p) hist QCp0 T j). rewrite A. cbn [q_row]. apply Rlt_trans with 2; [lra|]. destruct Hk as [[-> B]|[-> B]]; apply RC; try lia; lra.
Qed.
(* Temperatures at least 1 K apart have different enthalpies and entropies, over the whole range 200 K to 6000 K and after any history of calls. *)
Theorem C62_shipped_across hist T1 T2 P c a b : p_products p <> [] -> 200 <= T1 -> T2 < 6000 -> 1 <= T2 - T1 ->
  cea_tp (gas_of p hist) T1 P c a -> cea_tp (gas_of p hist) T2 P c b -> a "h" < b "h" /\ a "S" < b "S".
Proof.
  intros Hne H1 H2 Hd Ha Hb. pose proof (C65_gas_ok sd d p Hsd' Hp hist Hne) as G.
  apply cea_equilibrium in Ha as (e1 & E1 & Pa). apply cea_equilibrium in Hb as (e2 & E2 & Pb). rewrite !Pa, !Pb by (cbn; tauto).
  destruct (Rlt_le_dec T2 1000) as [L|L]; [|destruct (Rlt_le_dec 1000 T1) as [L'|L']].
  - pose proof (regular_side hist T1 T2 H1 H2 (or_introl L)) as Rg. split; [apply (h_increases _ G T1 T2 P c)|apply (S_increases _ G T1 T2 P c)]; auto; lra.
  - pose proof (regular_side hist T1 T2 H1 H2 (or_intror L')) as Rg. split; [apply (h_increases _ G T1 T2 P c)|apply (S_increases _ G T1 T2 P c)]; auto; lra.
  - destruct (gas_rows hist T1 ltac:(lra)) as (k1 & K1 & S1). destruct (gas_rows hist T2 ltac:(lra)) as (k2 & K2 & S2).
    assert (LT : forall j, (j < List.length (p_products p))%nat -> (k1 j < 2)%nat /\ (k2 j < 2)%nat) by (intros j Hj; destruct (K1 j Hj) as [[-> _]|[-> _]]; destruct (K2 j Hj) as [[-> _]|[-> _]]; lia).
    assert (A1 : above2 (row_gas k1) T1 1000) by (apply row_above; [lra|lra|]; intros j Hj; destruct (K1 j Hj) as [[-> B]|[-> B]]; [left; split; [reflexivity|lra]|right; split; [reflexivity|lra]]).
    assert (A2 : above2 (row_gas k2) 1000 T2) by (apply row_above; [lra|lra|]; intros j Hj; destruct (K2 j Hj) as [[-> B]|[-> B]]; [left; split; [reflexivity|lra]|right; split; [reflexivity|lra]]).
    split; [apply (h_across _ (row_gas k1) (row_gas k2) T1 T2 P c)|apply (S_across _ (row_gas k1) (row_gas k2) T1 T2 P c)]; auto; try lra; try (apply row_ok; exact Hne); apply row_meet; exact LT.
Qed.
(* so the temperature that total_hP or total_SP finds is determined to within 1 K *)
Theorem C62_shipped_within hist m fl w w' : p_products p <> [] -> In m [total_hP; total_SP] ->
  Spec_Wire.solves (thermo (cea_tp (gas_of p hist)) CEA m fl) w -> Spec_Wire.solves (thermo (cea_tp (gas_of p hist)) CEA m fl) w' ->
  200 <= w (at_ fl "T") 0%nat < 6000 -> 200 <= w' (at_ fl "T") 0%nat < 6000 ->
  w (found m) 0%nat = w' (found m) 0%nat -> w "P" 0%nat = w' "P" 0%nat -> (forall i, (i < List.length (p_elements p))%nat -> w "composition" i = w' "composition" i) ->
  Rabs (w (at_ fl "T") 0%nat - w' (at_ fl "T") 0%nat) < 1.
Proof.
  intros Hne Hm S S' HT HT' EX EP EC. set (g := gas_of p hist) in *.
  assert (K : exists c c', station (cea_tp g) CEA c w fl /\ station (cea_tp g) CEA c' w' fl /\ (forall i, (i < ne g)%nat -> c i = c' i) /\ w (at_ fl "P") 0%nat = w' (at_ fl "P") 0%nat /\
    w (at_ fl (found m)) 0%nat = w' (at_ fl (found m)) 0%nat /\ In (found m) ["h"; "S"]).
  { destruct Hm as [<-|[<-|[]]].
    - apply C42_total_hP in S as (A1 & A2 & A3 & A4). apply C42_total_hP in S' as (B1 & B2 & B3 & B4). cbn [found] in *. do 2 eexists. split; [exact A1|]. split; [exact B1|].
      split; [intros i Hi; rewrite A4, B4; apply EC; exact Hi|]. split; [rewrite A3, B3; auto|]. split; [congruence|cbn; auto].
    - apply C42_total_SP in S as (A1 & A2 & A3 & A4). apply C42_total_SP in S' as (B1 & B2 & B3 & B4). cbn [found] in *. do 2 eexists. split; [exact A1|]. split; [exact B1|].
      split; [intros i Hi; rewrite A4, B4; apply EC; exact Hi|]. split; [rewrite A3, B3; auto|]. split; [congruence|cbn; auto]. }
  destruct K as (c & c' & (a & Ka & Ea) & (b & Kb & Eb) & K3 & K4 & K5 & K6).
  apply (cea_comp g _ _ c c') in Ka; [|exact K3]. rewrite <- K4 in Kb.
  assert (Hx' : In (found m) prop_names) by (destruct K6 as [<-|[<-|[]]]; cbn; tauto). rewrite (Ea _ Hx'), (Eb _ Hx') in K5. apply Rmult_eq_reg_r in K5; [|apply ufac_n0].
  apply Rnot_le_lt. intros Hge. destruct (Rle_lt_dec (w (at_ fl "T") 0%nat) (w' (at_ fl "T") 0%nat)) as [L|L].
  - rewrite Rabs_left1 in Hge by lra. destruct (C62_shipped_across hist _ _ _ _ a b Hne ltac:(apply HT) ltac:(apply HT') ltac:(lra) Ka Kb) as [Q1 Q2]. destruct K6 as [Q|[Q|[]]]; rewrite <- Q in K5; lra.
  - rewrite Rabs_pos_eq in Hge by lra. destruct (C62_shipped_across hist _ _ _ _ b a Hne ltac:(apply HT') ltac:(apply HT) ltac:(lra) Kb Ka) as [Q1 Q2]. destruct K6 as [Q|[Q|[]]]; rewrite <- Q in K5; lra.
Qed.
End Across.
