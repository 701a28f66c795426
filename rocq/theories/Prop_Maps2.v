(* C75: the maps of the N+3 example, and the shape of all maps: flow against speed, R-line and pressure ratio. *)
From Coq Require Import ZArith QArith Qreals Lia Psatz Sorting.Sorted.
From Verif Require Import Lib_Py Lib_R Data_Thermo Model_Maps Prop_Data Data_MapsN3.
Open Scope string_scope. Open Scope list_scope. Open Scope R_scope.

(* ---------- linear interpolation keeps order ---------- *)
Definition cmp := bool.   (* true: strictly *)
Definition rel (s : cmp) : R -> R -> Prop := if s then Rlt else Rle.
Lemma rel_le s a b : rel s a b -> a <= b.
Proof. destruct s; cbn; lra. Qed.
Lemma mix_rel s a b a' b' t : 0 <= t <= 1 -> rel s a a' -> rel s b b' -> rel s (a + (b - a) * t) (a' + (b' - a') * t).
Proof.
  intros [T0 T1] Ha Hb. pose proof (rel_le _ _ _ Ha). pose proof (rel_le _ _ _ Hb).
  assert (N1 : 0 <= (a' - a) * (1 - t)) by (apply Rmult_le_pos; lra). assert (N2 : 0 <= (b' - b) * t) by (apply Rmult_le_pos; lra).
  destruct s; cbn in *; [|lra]. destruct (Req_dec t 0) as [->|N]; [lra|]. assert (0 < (b' - b) * t) by (apply Rmult_lt_0_compat; lra). lra.
Qed.
Lemma seg_rel s a b va vb x y : a < b -> x < y -> rel s va vb -> rel s (va + (vb - va) * ((x - a) / (b - a))) (va + (vb - va) * ((y - a) / (b - a))).
Proof.
  intros H1 H2 H. assert (E : va + (vb - va) * ((y - a) / (b - a)) = va + (vb - va) * ((x - a) / (b - a)) + (vb - va) * ((y - x) / (b - a))) by (field; lra). rewrite E.
  assert (F : 0 < (y - x) / (b - a)) by (apply Rdiv_lt_0_compat; lra). destruct s; cbn in *; [assert (0 < (vb - va) * ((y - x) / (b - a))) by (apply Rmult_lt_0_compat; lra)|assert (0 <= (vb - va) * ((y - x) / (b - a))) by (apply Rmult_le_pos; lra)]; lra.
Qed.
Lemma lin_rel s g : StronglySorted Rlt g -> (2 <= List.length g)%nat -> forall v v' x, List.length v = List.length g -> Forall2 (rel s) v v' -> in_grid g x -> rel s (lin g v x) (lin g v' x).
Proof.
  induction g as [|a g IH]; intros Hs Hl v v' x Hv HF Hx; [cbn in Hl; lia|]. destruct g as [|b g]; [cbn in Hl; lia|].
  destruct v as [|va [|vb v]]; try (cbn in Hv; lia). inversion HF as [|? va' ? v1 Fa F1]; subst. inversion F1 as [|? vb' ? v2 Fb F2]; subst.
  inversion Hs as [|? ? Hs' Hf]; subst. inversion Hf as [|? ? Hab _]; subst. pose proof Hx as [lo [hi [H1 [H2 H3]]]]. cbn in H1. inversion H1; subst lo. destruct g as [|c g].
  - cbn in H2. inversion H2; subst hi. cbn [lin]. apply mix_rel; [apply frac_01; assumption|exact Fa|exact Fb].
  - change (lin (a :: b :: c :: g) (va :: vb :: v) x) with (if Rlt_dec x b then va + (vb - va) * ((x - a) / (b - a)) else lin (b :: c :: g) (vb :: v) x).
    change (lin (a :: b :: c :: g) (va' :: vb' :: v2) x) with (if Rlt_dec x b then va' + (vb' - va') * ((x - a) / (b - a)) else lin (b :: c :: g) (vb' :: v2) x).
    destruct (Rlt_dec x b) as [L|L]; [apply mix_rel; [apply frac_01; [exact Hab|lra]|exact Fa|exact Fb]|].
    apply IH; [exact Hs'|cbn; lia|cbn in *; lia|exact F1|apply (in_grid_tail a); [exact Hx|lra]].
Qed.
(* every element stands in the relation to all the later ones *)
Lemma lin_mono s g : StronglySorted Rlt g -> (2 <= List.length g)%nat -> forall v x y, List.length v = List.length g -> StronglySorted (rel s) v -> in_grid g x -> in_grid g y -> x < y -> rel s (lin g v x) (lin g v y).
Proof.
  induction g as [|a g IH]; intros Hs Hl v x y Hv HS Hx Hy Hxy; [cbn in Hl; lia|]. destruct g as [|b g]; [cbn in Hl; lia|].
  destruct v as [|va [|vb v]]; try (cbn in Hv; lia). inversion HS as [|? ? HS' HF]; subst. inversion HF as [|? ? Fab _]; subst.
  inversion Hs as [|? ? Hs' Hf]; subst. inversion Hf as [|? ? Hab _]; subst. destruct g as [|c g].
  - cbn [lin]. apply seg_rel; assumption.
  - change (lin (a :: b :: c :: g) (va :: vb :: v) x) with (if Rlt_dec x b then va + (vb - va) * ((x - a) / (b - a)) else lin (b :: c :: g) (vb :: v) x).
    change (lin (a :: b :: c :: g) (va :: vb :: v) y) with (if Rlt_dec y b then va + (vb - va) * ((y - a) / (b - a)) else lin (b :: c :: g) (vb :: v) y).
    destruct (Rlt_dec x b) as [L|L].
    + destruct (Rlt_dec y b) as [L'|L']; [apply seg_rel; assumption|].
      assert (M : rel s (va + (vb - va) * ((x - a) / (b - a))) vb).
      { replace vb with (va + (vb - va) * ((b - a) / (b - a))) at 2 by (field; lra). apply seg_rel; assumption. }
      assert (G : vb <= lin (b :: c :: g) (vb :: v) y).
      { apply (lin_convex (fun r => vb <= r) (b :: c :: g) (convex_ge vb) Hs' ltac:(cbn; lia)); [cbn in *; lia| |apply (in_grid_tail a); [exact Hy|lra]].
        intros r [<-|Hr]; [lra|]. inversion HS' as [|? ? _ HF']; subst. rewrite Forall_forall in HF'. apply (rel_le s), HF', Hr. }
      destruct s; cbn in *; lra.
    + destruct (Rlt_dec y b) as [L'|L']; [lra|]. apply IH; [exact Hs'|cbn; lia|cbn in *; lia|exact HS'|apply (in_grid_tail a); [exact Hx|lra]|apply (in_grid_tail a); [exact Hy|lra]|exact Hxy].
Qed.
Lemma rel_trans s a b c : rel s a b -> rel s b c -> rel s a c.
Proof. destruct s; cbn; lra. Qed.
(* ---------- checks of the tables ---------- *)
Definition zrel (s : cmp) : Z -> Z -> bool := if s then Z.ltb else Z.leb.
Fixpoint rows_b (s : cmp) (r r' : list Z) : bool := match r, r' with a :: l, b :: l' => zrel s a b && rows_b s l l' | [], [] => true | _, _ => false end.
Fixpoint adj_b {A} (f : A -> A -> bool) (l : list A) : bool := match l with a :: r => match r with b :: _ => f a b && adj_b f r | [] => true end | [] => true end.
(* up2: from one value of the second parameter to the next every number grows; up3: along the third parameter *)
Definition up2 (s : cmp) (t : list (list (list Z))) : bool := forallb (adj_b (rows_b s)) t.
Definition up3 (s : cmp) (t : list (list (list Z))) : bool := forallb (forallb (adj_b (zrel s))) t.
Lemma zrel_R s a b : zrel s a b = true -> rel s (zR a) (zR b).
Proof. destruct s; cbn; intros H; [apply Z.ltb_lt in H; apply zR_lt; exact H|apply Z.leb_le in H; apply zR_le; exact H]. Qed.
Lemma rows_R s r : forall r', rows_b s r r' = true -> Forall2 (rel s) (map zR r) (map zR r').
Proof. induction r as [|a r IH]; intros [|b r'] H; try discriminate; [constructor|]. cbn in H. apply andb_true_iff in H as [H1 H2]. cbn. constructor; [apply zrel_R; exact H1|apply IH; exact H2]. Qed.
Lemma adj_sorted {A} (f : A -> A -> bool) (h : A -> R) s l : adj_b f l = true -> (forall a b, In a l -> In b l -> f a b = true -> rel s (h a) (h b)) -> StronglySorted (rel s) (map h l).
Proof.
  induction l as [|a [|b r] IH]; intros H HR; [constructor|constructor; constructor|]. cbn [adj_b] in H. apply andb_true_iff in H as [H1 H2].
  assert (S : StronglySorted (rel s) (map h (b :: r))) by (apply IH; [exact H2|intros; apply HR; [right; assumption|right; assumption|assumption]]).
  assert (R1 : rel s (h a) (h b)) by (apply HR; [left; reflexivity|right; left; reflexivity|exact H1]).
  cbn [map]. constructor; [exact S|]. inversion S as [|? ? _ F]; subst. constructor; [exact R1|]. eapply Forall_impl; [|exact F]. intros c Hc. exact (rel_trans _ _ _ _ R1 Hc).
Qed.
Lemma Forall2_map {A} s (f f' : A -> R) l : (forall a, In a l -> rel s (f a) (f' a)) -> Forall2 (rel s) (map f l) (map f' l).
Proof. induction l as [|a l IH]; intros H; [constructor|]. cbn. constructor; [apply H; left; reflexivity|apply IH; intros; apply H; right; assumption]. Qed.
Lemma lookup_up2 s m o x y y' z r r' : map_ok m -> In o (mz_outputs m) -> up2 s (snd o) = true -> lookup_map m o x y z r -> lookup_map m o x y' z r' -> y < y' -> rel s r r'.
Proof.
  intros Ok Ho U H H' Hy. destruct (lookup_inv m o x y z r Ok H Ho) as (p1 & p2 & p3 & Ep & (S1 & L1 & _) & (S2 & L2 & _) & (S3 & L3 & _) & (T1 & T2) & X & Y & Z & ->).
  destruct (lookup_inv m o x y' z r' Ok H' Ho) as (q1 & q2 & q3 & Eq & _ & _ & _ & _ & _ & Y' & _ & ->). rewrite Ep in Eq. inversion Eq; subst q1 q2 q3.
  unfold slinear3. apply lin_rel; [exact S1|exact L1|rewrite map_length; exact T1| |exact X]. apply Forall2_map. intros pl Hpl. destruct (T2 pl Hpl) as [T3 T4].
  unfold o_table in Hpl. apply in_map_iff in Hpl as (pz & <- & Hpz). unfold up2 in U. rewrite forallb_forall in U. specialize (U pz Hpz).
  apply lin_mono; [exact S2|exact L2|rewrite map_length; exact T3| |exact Y|exact Y'|exact Hy]. rewrite map_map. apply (adj_sorted (rows_b s)); [exact U|].
  intros a b Ha Hb Hab. apply lin_rel; [exact S3|exact L3|apply T4, in_map, Ha|apply rows_R, Hab|exact Z].
Qed.
Lemma lookup_up3 s m o x y z z' r r' : map_ok m -> In o (mz_outputs m) -> up3 s (snd o) = true -> lookup_map m o x y z r -> lookup_map m o x y z' r' -> z < z' -> rel s r r'.
Proof.
  intros Ok Ho U H H' Hz. destruct (lookup_inv m o x y z r Ok H Ho) as (p1 & p2 & p3 & Ep & (S1 & L1 & _) & (S2 & L2 & _) & (S3 & L3 & _) & (T1 & T2) & X & Y & Z & ->).
  destruct (lookup_inv m o x y z' r' Ok H' Ho) as (q1 & q2 & q3 & Eq & _ & _ & _ & _ & _ & _ & Z' & ->). rewrite Ep in Eq. inversion Eq; subst q1 q2 q3.
  unfold slinear3. apply lin_rel; [exact S1|exact L1|rewrite map_length; exact T1| |exact X]. apply Forall2_map. intros pl Hpl. destruct (T2 pl Hpl) as [T3 T4].
  unfold o_table in Hpl. apply in_map_iff in Hpl as (pz & <- & Hpz). unfold up3 in U. rewrite forallb_forall in U. specialize (U pz Hpz). rewrite forallb_forall in U.
  apply lin_rel; [exact S2|exact L2|rewrite map_length; exact T3| |exact Y]. apply Forall2_map. intros row Hrow. pose proof (T4 row Hrow) as T5. apply in_map_iff in Hrow as (rz & <- & Hrz). specialize (U rz Hrz).
  apply lin_mono; [exact S3|exact L3|exact T5| |exact Z|exact Z'|exact Hz]. apply (adj_sorted (zrel s)); [exact U|]. intros a b _ _. apply zrel_R.
Qed.

(* ---------- the maps of the N+3 example are well formed and physical ---------- *)
Theorem C75_n3_maps : forall m, In m n3_maps -> map_ok m.
Proof. intros m Hm. apply map_okb_ok. revert m Hm. apply forallb_forall. vm_compute. reflexivity. Qed.
Print Assumptions C75_n3_maps.
Lemma n3_bounds : forallb (fun m => forallb (fun o =>
    (negb (String.eqb (o_name o) "effMap") || all_in (fun z => Z.leb 0 z && Z.ltb z 10000) o) &&
    (negb (String.eqb (o_name o) "WcMap" || String.eqb (o_name o) "WpMap") || all_in (fun z => Z.ltb 0 z) o) &&
    (negb (String.eqb (o_name o) "PRmap") || all_in (fun z => Z.leb 10000 z) o)) (mz_outputs m)) n3_maps = true.
Proof. vm_compute. reflexivity. Qed.
Theorem C75_n3_physical : forall m o x y z r, In m n3_maps -> In o (mz_outputs m) -> lookup_map m o x y z r ->
  (o_name o = "effMap" -> 0 <= r < 1) /\ (o_name o = "WcMap" \/ o_name o = "WpMap" -> 0 < r) /\ (o_name o = "PRmap" -> 1 <= r).
Proof.
  intros m o x y z r Hm Ho Hr. pose proof (C75_n3_maps m Hm) as Ok. pose proof n3_bounds as K. rewrite forallb_forall in K. specialize (K m Hm). rewrite forallb_forall in K. specialize (K o Ho).
  rewrite !andb_true_iff, !orb_true_iff, !negb_true_iff in K. destruct K as [[K1 K2] K3]. split; [|split].
  - intros E. destruct K1 as [K1|K1]; [apply String.eqb_neq in K1; congruence|]. split.
    + apply (lookup_convex (fun r => 0 <= r) m o x y z r (convex_ge 0) Ok Ho); [|exact Hr]. apply (all_in_ok _ _ (fun r => 0 <= r) ltac:(intros z0 H; apply andb_true_iff in H as [H _]; apply Z.leb_le in H; cbv beta; rewrite <- zR_0; apply zR_le, H) K1).
    + apply (lookup_convex (fun r => r < 1) m o x y z r (convex_lt 1) Ok Ho); [|exact Hr]. apply (all_in_ok _ _ (fun r => r < 1) ltac:(intros z0 H; apply andb_true_iff in H as [_ H]; apply Z.ltb_lt in H; cbv beta; rewrite <- zR_1; apply zR_lt, H) K1).
  - intros E. destruct K2 as [K2|K2]; [exfalso; apply orb_false_iff in K2 as [A B]; apply String.eqb_neq in A, B; tauto|].
    apply (lookup_convex (fun r => 0 < r) m o x y z r (convex_gt 0) Ok Ho); [|exact Hr]. apply (all_in_ok _ _ (fun r => 0 < r) ltac:(intros z0 H; apply Z.ltb_lt in H; cbv beta; rewrite <- zR_0; apply zR_lt, H) K2).
  - intros E. destruct K3 as [K3|K3]; [apply String.eqb_neq in K3; congruence|].
    apply (lookup_convex (fun r => 1 <= r) m o x y z r (convex_ge 1) Ok Ho); [|exact Hr]. apply (all_in_ok _ _ (fun r => 1 <= r) ltac:(intros z0 H; apply Z.leb_le in H; cbv beta; rewrite <- zR_1; apply zR_le, H) K3).
Qed.
Print Assumptions C75_n3_physical.
Lemma n3_design : forallb design_okb n3_maps = true. Proof. vm_compute. reflexivity. Qed.
(* at the default point of every N+3 map the efficiency is positive, the pressure ratio above one and the flow positive: the design scalars are defined *)
Theorem C75_n3_design_point : forall m, In m n3_maps -> exists p1 p2 p3 x y z, mz_params m = [p1; p2; p3] /\
  dget (mz_defaults m) (p_name p1) = Some x /\ dget (mz_defaults m) (p_name p2) = Some y /\ dget (mz_defaults m) (p_name p3) = Some z /\
  forall o, In o (mz_outputs m) -> exists r, lookup_map m o (zR x) (zR y) (zR z) r /\
    (o_name o = "effMap" -> 0 < r < 1) /\ (o_name o = "WcMap" \/ o_name o = "WpMap" -> 0 < r) /\ (o_name o = "PRmap" -> 1 < r).
Proof.
  intros m Hm. pose proof n3_design as K. rewrite forallb_forall in K. specialize (K m Hm). unfold design_okb in K.
  destruct (mz_params m) as [|p1 [|p2 [|p3 [|? ?]]]] eqn:E; try discriminate. rewrite !andb_true_iff in K. destruct K as [[[S1 S2] S3] K].
  destruct (dget (mz_defaults m) (p_name p1)) as [x|] eqn:X; [|discriminate]. destruct (dget (mz_defaults m) (p_name p2)) as [y|] eqn:Y; [|discriminate].
  destruct (dget (mz_defaults m) (p_name p3)) as [z|] eqn:Z; [|discriminate]. exists p1, p2, p3, x, y, z. repeat (split; [assumption || reflexivity|]).
  intros o Ho. rewrite forallb_forall in K. specialize (K o Ho). destruct (C75_n3_maps m Hm) as [q1 [q2 [q3 [E' [_ [_ [_ [_ [_ [D _]]]]]]]]]]. rewrite E in E'. inversion E'; subst q1 q2 q3.
  assert (G1 := D p1 x (or_introl eq_refl) X). assert (G2 := D p2 y (or_intror (or_introl eq_refl)) Y). assert (G3 := D p3 z (or_intror (or_intror (or_introl eq_refl))) Z).
  assert (L : lookup_map m o (zR x) (zR y) (zR z) (Q2R (sl3q (snd p1) (snd p2) (snd p3) (snd o) x y z))).
  { exists p1, p2, p3. repeat (split; [assumption|]). apply sl3q_R; assumption. }
  eexists. split; [exact L|]. destruct (C75_n3_physical m o _ _ _ _ Hm Ho L) as [B1 [B2 B3]].
  apply andb_true_iff in K as [K1 K2]. apply orb_true_iff in K1, K2. split; [|split].
  - intros N. split; [|apply B1, N]. destruct K1 as [K1|K1]; [apply negb_true_iff, String.eqb_neq in K1; contradiction|]. rewrite <- Prop_Data.Q2R_0. apply Qlt_Rlt, nle_lt, K1.
  - exact B2.
  - intros N. destruct K2 as [K2|K2]; [apply negb_true_iff, String.eqb_neq in K2; contradiction|]. replace 1 with (Q2R 1) by (unfold Q2R; cbn; lra). apply Qlt_Rlt, nle_lt, K2.
Qed.
Print Assumptions C75_n3_design_point.

(* ---------- the shape of every map, the library's and the example's ---------- *)
Definition all_maps : list mapZ := shipped_maps ++ n3_maps.
Lemma all_ok m : In m all_maps -> map_ok m.
Proof. intros H. apply in_app_or in H as [H|H]; [apply C46_maps|apply C75_n3_maps]; exact H. Qed.
Definition named (n : string) (chk : list (list (list Z)) -> bool) (m : mapZ) : bool := forallb (fun o => negb (String.eqb (o_name o) n) || chk (snd o)) (mz_outputs m).
Lemma named_ok n chk l : forallb (named n chk) l = true -> forall m o, In m l -> In o (mz_outputs m) -> o_name o = n -> chk (snd o) = true.
Proof.
  intros H m o Hm Ho En. rewrite forallb_forall in H. specialize (H m Hm). unfold named in H. rewrite forallb_forall in H. specialize (H o Ho). rewrite En, String.eqb_refl in H. exact H.
Qed.
Lemma speed_check : forallb (named "WcMap" (up2 true)) all_maps = true. Proof. vm_compute. reflexivity. Qed.
Lemma wp_check : forallb (named "WpMap" (up3 false)) all_maps = true. Proof. vm_compute. reflexivity. Qed.
Definition steady (m : mapZ) : bool := negb (String.eqb (mz_name m) "LPCMap" || String.eqb (mz_name m) "N3HPCMap").
Lemma rline_check : forallb (named "WcMap" (up3 false)) (filter steady all_maps) = true. Proof. vm_compute. reflexivity. Qed.
(* at the same blade angle and R-line a compressor map's flow grows with the corrected speed, everywhere in the grid *)
Theorem C75_flow_speed : forall m o x y y' z r r', In m all_maps -> In o (mz_outputs m) -> o_name o = "WcMap" -> lookup_map m o x y z r -> lookup_map m o x y' z r' -> y < y' -> r < r'.
Proof. intros m o x y y' z r r' Hm Ho En H H' Hy. exact (lookup_up2 true m o x y y' z r r' (all_ok m Hm) Ho (named_ok _ _ _ speed_check m o Hm Ho En) H H' Hy). Qed.
Print Assumptions C75_flow_speed.
(* so the flow determines the speed *)
Theorem C75_speed_determined : forall m o x y y' z r, In m all_maps -> In o (mz_outputs m) -> o_name o = "WcMap" -> lookup_map m o x y z r -> lookup_map m o x y' z r -> y = y'.
Proof.
  intros m o x y y' z r Hm Ho En H H'. destruct (Rtotal_order y y') as [L|[E|L]]; [|exact E|].
  - pose proof (C75_flow_speed m o x y y' z r r Hm Ho En H H' L). lra.
  - pose proof (C75_flow_speed m o x y' y z r r Hm Ho En H' H L). lra.
Qed.
Print Assumptions C75_speed_determined.
(* a turbine map's flow never falls with the pressure ratio *)
Theorem C75_turbine_flow : forall m o x y z z' r r', In m all_maps -> In o (mz_outputs m) -> o_name o = "WpMap" -> lookup_map m o x y z r -> lookup_map m o x y z' r' -> z <= z' -> r <= r'.
Proof.
  intros m o x y z z' r r' Hm Ho En H H' [Hz| <-].
  - exact (lookup_up3 false m o x y z z' r r' (all_ok m Hm) Ho (named_ok _ _ _ wp_check m o Hm Ho En) H H' Hz).
  - destruct H as (p1 & p2 & p3 & E & _ & _ & _ & ->), H' as (q1 & q2 & q3 & E' & _ & _ & _ & ->). rewrite E in E'. inversion E'. lra.
Qed.
Print Assumptions C75_turbine_flow.
(* a compressor map's flow never falls with the R-line; missing: two of the fifteen maps, see below *)
Theorem C75_flow_rline_partial : forall m o x y z z' r r', In m all_maps -> mz_name m <> "LPCMap" -> mz_name m <> "N3HPCMap" -> In o (mz_outputs m) -> o_name o = "WcMap" ->
  lookup_map m o x y z r -> lookup_map m o x y z' r' -> z < z' -> r <= r'.
Proof.
  intros m o x y z z' r r' Hm N1 N2 Ho En H H' Hz. refine (lookup_up3 false m o x y z z' r r' (all_ok m Hm) Ho (named_ok _ _ _ rline_check m o _ Ho En) H H' Hz).
  apply filter_In. split; [exact Hm|]. unfold steady. apply String.eqb_neq in N1, N2. rewrite N1, N2. reflexivity.
Qed.
Print Assumptions C75_flow_rline_partial.
(* the number a lookup at grid point (i, j, k) gives *)
Definition entry (m : mapZ) (n : string) (i j k : nat) (x y z v : Z) : bool :=
  match mz_params m with
  | [p1; p2; p3] => match nth_error (snd p1) i, nth_error (snd p2) j, nth_error (snd p3) k with
      | Some a, Some b, Some c => Z.eqb a x && Z.eqb b y && Z.eqb c z && within (snd p1) x && within (snd p2) y && within (snd p3) z &&
          existsb (fun o => String.eqb (o_name o) n && match nth_error (snd o) i with Some pl => match nth_error pl j with Some row => match nth_error row k with Some w => Z.eqb w v | None => false end | None => false end | None => false end) (firstn 1 (filter (fun o => String.eqb (o_name o) n) (mz_outputs m)))
      | _, _, _ => false end
  | _ => false end.
Definition the_output (m : mapZ) (n : string) (o : string * string * list (list (list Z))) : Prop := firstn 1 (filter (fun o => String.eqb (o_name o) n) (mz_outputs m)) = (cons o nil)%list.
Lemma entry_ok m n i j k x y z v : map_ok m -> entry m n i j k x y z v = true -> exists o, the_output m n o /\ In o (mz_outputs m) /\ o_name o = n /\ lookup_map m o (zR x) (zR y) (zR z) (zR v).
Proof.
  intros Ok H. unfold entry in H. destruct (mz_params m) as [|p1 [|p2 [|p3 [|? ?]]]] eqn:Ep; try discriminate.
  destruct (nth_error (snd p1) i) as [a|] eqn:N1; [|discriminate]. destruct (nth_error (snd p2) j) as [b|] eqn:N2; [|discriminate]. destruct (nth_error (snd p3) k) as [c|] eqn:N3; [|discriminate].
  rewrite !andb_true_iff in H. destruct H as [[[[[[A B] C] W1] W2] W3] H]. apply Z.eqb_eq in A, B, C. subst a b c.
  destruct (firstn 1 (filter (fun o => String.eqb (o_name o) n) (mz_outputs m))) as [|o [|o' l]] eqn:EF; [discriminate| |].
  2:{ exfalso. assert (L : (List.length (firstn 1 (filter (fun o => String.eqb (o_name o) n) (mz_outputs m))) <= 1)%nat) by apply firstn_le_length. rewrite EF in L. cbn in L. lia. }
  cbn [existsb] in H. rewrite orb_false_r in H. apply andb_true_iff in H as [Hn H]. apply String.eqb_eq in Hn.
  destruct (nth_error (snd o) i) as [pl|] eqn:M1; [|discriminate]. destruct (nth_error pl j) as [row|] eqn:M2; [|discriminate]. destruct (nth_error row k) as [w|] eqn:M3; [|discriminate]. apply Z.eqb_eq in H. subst w.
  assert (Ho : In o (mz_outputs m)).
  { assert (I : In o (filter (fun o => String.eqb (o_name o) n) (mz_outputs m))).
    { destruct (filter (fun o => String.eqb (o_name o) n) (mz_outputs m)) as [|q qs]; [discriminate|]. injection EF as ->. left. reflexivity. }
    apply filter_In in I as [I _]. exact I. }
  exists o. split; [exact EF|]. split; [exact Ho|]. split; [exact Hn|].
  assert (L : lookup_map m o (zR x) (zR y) (zR z) (slinear3 (p_grid p1) (p_grid p2) (p_grid p3) (o_table o) (zR x) (zR y) (zR z))).
  { exists p1, p2, p3. split; [exact Ep|]. repeat (split; [apply within_ok; assumption|]). reflexivity. }
  destruct (lookup_inv m o _ _ _ _ Ok L Ho) as (q1 & q2 & q3 & Eq & (S1 & L1 & _) & (S2 & L2 & _) & (S3 & L3 & _) & (T1 & T2) & _). rewrite Ep in Eq. inversion Eq; subst q1 q2 q3.
  enough (E : slinear3 (p_grid p1) (p_grid p2) (p_grid p3) (o_table o) (zR x) (zR y) (zR z) = zR v) by (rewrite E in L; exact L).
  assert (O1 : nth_error (o_table o) i = Some (map (map zR) pl)) by (unfold o_table; rewrite nth_error_map, M1; reflexivity). destruct (T2 _ (nth_error_In _ _ O1)) as [T3 T4].
  assert (O2 : nth_error (map (map zR) pl) j = Some (map zR row)) by (rewrite nth_error_map, M2; reflexivity).
  unfold slinear3. apply (lin_node _ S1 L1 _ i); [rewrite map_length; exact T1|unfold p_grid; rewrite nth_error_map, N1; reflexivity|]. rewrite nth_error_map, O1. cbn [option_map]. f_equal.
  apply (lin_node _ S2 L2 _ j); [rewrite map_length; exact T3|unfold p_grid; rewrite nth_error_map, N2; reflexivity|]. rewrite nth_error_map, O2. cbn [option_map]. f_equal.
  apply (lin_node _ S3 L3 _ k); [apply T4, (nth_error_In _ _ O2)|unfold p_grid; rewrite nth_error_map, N3; reflexivity|rewrite nth_error_map, M3; reflexivity].
Qed.
Lemma two_entries m n i j k x y z v i' j' k' x' y' z' v' : map_ok m -> entry m n i j k x y z v = true -> entry m n i' j' k' x' y' z' v' = true ->
  exists o, In o (mz_outputs m) /\ o_name o = n /\ lookup_map m o (zR x) (zR y) (zR z) (zR v) /\ lookup_map m o (zR x') (zR y') (zR z') (zR v').
Proof.
  intros Ok H H'. destruct (entry_ok _ _ _ _ _ _ _ _ _ Ok H) as (o & F & I & N & L). destruct (entry_ok _ _ _ _ _ _ _ _ _ Ok H') as (o' & F' & _ & _ & L').
  unfold the_output in F, F'. rewrite F in F'. injection F' as <-. exists o. auto.
Qed.
(* refuted for the other two: their flow falls somewhere along a speed line *)
Theorem C75_flow_rline_refuted : forall m, m = LPCMap_z \/ m = N3HPCMap_z -> In m all_maps /\ exists o x y z z' r r', In o (mz_outputs m) /\ o_name o = "WcMap" /\
  lookup_map m o x y z r /\ lookup_map m o x y z' r' /\ z < z' /\ r' < r.
Proof.
  intros m [->| ->].
  - assert (I : In LPCMap_z all_maps) by (apply in_or_app; left; unfold shipped_maps; do 3 right; left; reflexivity). split; [exact I|].
    destruct (two_entries LPCMap_z "WcMap" 0 13 0 0 11500 10000 960840 0 13 1 0 11500 12000 960740 (all_ok _ I)) as (o & Io & N & L & L'); [vm_compute; reflexivity|vm_compute; reflexivity|].
    exists o, (zR 0), (zR 11500), (zR 10000), (zR 12000), (zR 960840), (zR 960740). split; [exact Io|]. split; [exact N|]. split; [exact L|]. split; [exact L'|]. split; apply zR_lt; reflexivity.
  - assert (I : In N3HPCMap_z all_maps) by (apply in_or_app; right; unfold n3_maps; right; left; reflexivity). split; [exact I|].
    destruct (two_entries N3HPCMap_z "WcMap" 0 9 7 0 9750 24000 1880273 0 9 8 0 9750 26000 1880271 (all_ok _ I)) as (o & Io & N & L & L'); [vm_compute; reflexivity|vm_compute; reflexivity|].
    exists o, (zR 0), (zR 9750), (zR 24000), (zR 26000), (zR 1880273), (zR 1880271). split; [exact Io|]. split; [exact N|]. split; [exact L|]. split; [exact L'|]. split; apply zR_lt; reflexivity.
Qed.
Print Assumptions C75_flow_rline_refuted.
(* and no compressor map's flow determines the R-line: each of them has a choked stretch *)
Theorem C75_rline_not_determined : forall m, In m all_maps -> (exists o, In o (mz_outputs m) /\ o_name o = "WcMap") -> exists o x y z z' r, In o (mz_outputs m) /\ o_name o = "WcMap" /\
  lookup_map m o x y z r /\ lookup_map m o x y z' r /\ z < z'.
Proof.
  assert (G : forall m i j k x y z k' z' v, In m all_maps -> entry m "WcMap" i j k x y z v = true -> entry m "WcMap" i j k' x y z' v = true -> (z < z')%Z ->
    exists o x y z z' r, In o (mz_outputs m) /\ o_name o = "WcMap" /\ lookup_map m o x y z r /\ lookup_map m o x y z' r /\ z < z').
  { intros m i j k x y z k' z' v I H H' Hz. destruct (two_entries m "WcMap" _ _ _ _ _ _ _ _ _ _ _ _ _ _ (all_ok _ I) H H') as (o & Io & N & L & L').
    exists o, (zR x), (zR y), (zR z), (zR z'), (zR v). split; [exact Io|]. split; [exact N|]. split; [exact L|]. split; [exact L'|]. apply zR_lt. exact Hz. }
  intros m Hm Hw. pose proof Hm as I. unfold all_maps, shipped_maps, n3_maps in I. cbn [app In] in I.
  repeat (destruct I as [<-|I]; [|]); try contradiction.
  - refine (G _ 0%nat 5%nat 9%nat 0 7500 28000 10%nat 30000 6748650 Hm _ _ _)%Z; [vm_compute; reflexivity..|reflexivity].
  - refine (G _ 0%nat 4%nat 9%nat 0 8000 28000 10%nat 30000 202190 Hm _ _ _)%Z; [vm_compute; reflexivity..|reflexivity].
  - exfalso. destruct Hw as (o & [<-|[<-|[]]] & N); discriminate N.
  - refine (G _ 0%nat 7%nat 9%nat 0 8500 28000 10%nat 30000 749070 Hm _ _ _)%Z; [vm_compute; reflexivity..|reflexivity].
  - exfalso. destruct Hw as (o & [<-|[<-|[]]] & N); discriminate N.
  - refine (G _ 1%nat 5%nat 7%nat 900000 9000 24000 8%nat 26000 288980 Hm _ _ _)%Z; [vm_compute; reflexivity..|reflexivity].
  - refine (G _ 1%nat 6%nat 7%nat 900000 9500 24000 8%nat 26000 289012 Hm _ _ _)%Z; [vm_compute; reflexivity..|reflexivity].
  - exfalso. destruct Hw as (o & [<-|[<-|[]]] & N); discriminate N.
  - exfalso. destruct Hw as (o & [<-|[<-|[]]] & N); discriminate N.
  - refine (G _ 0%nat 3%nat 9%nat 0 8000 28000 10%nat 30000 27871653 Hm _ _ _)%Z; [vm_compute; reflexivity..|reflexivity].
  - refine (G _ 0%nat 0%nat 7%nat 0 5000 27500 8%nat 30000 18665565 Hm _ _ _)%Z; [vm_compute; reflexivity..|reflexivity].
  - refine (G _ 0%nat 0%nat 8%nat 0 5000 26000 9%nat 28000 278634 Hm _ _ _)%Z; [vm_compute; reflexivity..|reflexivity].
  - exfalso. destruct Hw as (o & [<-|[<-|[]]] & N); discriminate N.
  - refine (G _ 0%nat 0%nat 9%nat 0 3000 28000 10%nat 30000 765663 Hm _ _ _)%Z; [vm_compute; reflexivity..|reflexivity].
  - exfalso. destruct Hw as (o & [<-|[<-|[]]] & N); discriminate N.
Qed.
Print Assumptions C75_rline_not_determined.
Example C75_example : exists o r r', In N3FanMap_z all_maps /\ In o (mz_outputs N3FanMap_z) /\ o_name o = "WcMap" /\ lookup_map N3FanMap_z o (zR 0) (zR 5000) (zR 10000) r /\ lookup_map N3FanMap_z o (zR 0) (zR 6000) (zR 10000) r' /\ r < r'.
Proof.
  assert (I : In N3FanMap_z all_maps) by (apply in_or_app; right; left; reflexivity).
  destruct (two_entries N3FanMap_z "WcMap" 0 0 0 0 5000 10000 11043380 0 1 0 0 6000 10000 13690782 (all_ok _ I)) as (o & Io & N & L & L'); [vm_compute; reflexivity|vm_compute; reflexivity|].
  exists o, (zR 11043380), (zR 13690782). split; [exact I|]. split; [exact Io|]. split; [exact N|]. split; [exact L|]. split; [exact L'|]. apply zR_lt. reflexivity.
Qed.
