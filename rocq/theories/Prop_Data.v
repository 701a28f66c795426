(* Properties C46 (shipped data are well formed) and C52 (map lookups). *)
From Coq Require Import ZArith QArith Qreals Lia Psatz Sorting.Sorted.
From Verif Require Import Lib_Py Lib_R Data_Thermo Model_Maps.
Open Scope string_scope. Open Scope list_scope.

(* ---------- checks ---------- *)
Fixpoint sortedb (l : list Z) : bool :=
  match l with a :: r => match r with b :: _ => Z.ltb a b && sortedb r | [] => true end | [] => true end.
Lemma sortedb_ok l : sortedb l = true -> StronglySorted Z.lt l.
Proof.
  induction l as [|a [|b r] IH]; intros H.
  - constructor.
  - constructor; constructor.
  - cbn in H. apply andb_true_iff in H as [H1 H2]. apply Z.ltb_lt in H1. specialize (IH H2). constructor; [exact IH|].
    inversion IH; subst. constructor; [exact H1|]. eapply Forall_impl; [|exact H4]. cbn. intros; lia.
Qed.
Open Scope R_scope.
Lemma zR_lt a b : (a < b)%Z -> zR a < zR b.
Proof. intros H. unfold zR. apply Rmult_lt_compat_r; [apply Rinv_0_lt_compat; apply pow_lt; lra|]. apply IZR_lt. exact H. Qed.
Lemma zR_le a b : (a <= b)%Z -> zR a <= zR b.
Proof. intros H. unfold zR. apply Rmult_le_compat_r; [left; apply Rinv_0_lt_compat; apply pow_lt; lra|]. apply IZR_le. exact H. Qed.
Lemma sorted_map l : StronglySorted Z.lt l -> StronglySorted Rlt (map zR l).
Proof.
  induction 1 as [|a l Hs IH Hf]; cbn; [constructor|]. constructor; [exact IH|]. rewrite Forall_map. eapply Forall_impl; [|exact Hf]. intros b Hb. apply zR_lt. exact Hb.
Qed.
Lemma zR_0 : zR 0 = 0. Proof. unfold zR. cbn. lra. Qed.
Lemma zR_1 : zR 10000 = 1. Proof. unfold zR. cbn. lra. Qed.

(* ---------- C46: maps ---------- *)
(* three parameters with strictly increasing grids of at least two points that hold the default value, and for every output one number per grid point *)
Definition grid_ok (p : string * string * Z * list Z) : Prop :=
  StronglySorted Rlt (p_grid p) /\ (2 <= List.length (p_grid p))%nat /\ in_grid (p_grid p) (p_default p).
Definition shape_ok (n1 n2 n3 : nat) (t : list (list (list R))) : Prop :=
  List.length t = n1 /\ forall plane, In plane t -> List.length plane = n2 /\ forall row, In row plane -> List.length row = n3.
Definition map_ok (m : mapZ) : Prop := exists p1 p2 p3, mz_params m = [p1; p2; p3] /\ grid_ok p1 /\ grid_ok p2 /\ grid_ok p3 /\ NoDup [p_name p1; p_name p2; p_name p3] /\
  (forall o, In o (mz_outputs m) -> shape_ok (List.length (p_grid p1)) (List.length (p_grid p2)) (List.length (p_grid p3)) (o_table o)) /\
  (forall p v, In p [p1; p2; p3] -> dget (mz_defaults m) (p_name p) = Some v -> in_grid (p_grid p) (zR v)) /\
  (forall s, mz_stall m = Some s -> p_name p3 = "RlineMap" /\ in_grid (p_grid p3) (zR s)).
Definition within (g : list Z) (x : Z) : bool :=
  match hd_error g, hd_error (rev g) with Some a, Some b => Z.leb a x && Z.leb x b | _, _ => false end.
Definition grid_okb (p : string * string * Z * list Z) : bool := sortedb (snd p) && Nat.leb 2 (List.length (snd p)) && within (snd p) (snd (fst p)).
Definition shape_okb (n1 n2 n3 : nat) (t : list (list (list Z))) : bool :=
  Nat.eqb (List.length t) n1 && forallb (fun pl => Nat.eqb (List.length pl) n2 && forallb (fun r => Nat.eqb (List.length r) n3) pl) t.
Definition map_okb (m : mapZ) : bool :=
  match mz_params m with
  | [p1; p2; p3] => grid_okb p1 && grid_okb p2 && grid_okb p3 && negb (String.eqb (p_name p1) (p_name p2)) && negb (String.eqb (p_name p1) (p_name p3)) && negb (String.eqb (p_name p2) (p_name p3)) &&
      forallb (fun o => shape_okb (List.length (snd p1)) (List.length (snd p2)) (List.length (snd p3)) (snd o)) (mz_outputs m) &&
      forallb (fun p => match dget (mz_defaults m) (p_name p) with Some v => within (snd p) v | None => true end) [p1; p2; p3] &&
      match mz_stall m with Some s => String.eqb (p_name p3) "RlineMap" && within (snd p3) s | None => true end
  | _ => false
  end.
Lemma within_ok g x : within g x = true -> in_grid (map zR g) (zR x).
Proof.
  unfold within, in_grid. destruct (hd_error g) as [a|] eqn:E1; [|discriminate]. destruct (hd_error (rev g)) as [b|] eqn:E2; [|discriminate].
  intros H. apply andb_true_iff in H as [H1 H2]. apply Z.leb_le in H1, H2. exists (zR a), (zR b). rewrite <- map_rev. split; [|split].
  - destruct g; [discriminate|]. cbn in *. congruence.
  - destruct (rev g); [discriminate|]. cbn in *. congruence.
  - split; apply zR_le; assumption.
Qed.
Lemma grid_okb_ok p : grid_okb p = true -> grid_ok p.
Proof.
  unfold grid_okb, grid_ok, p_grid, p_default. rewrite !andb_true_iff. intros [[H1 H2] H3]. split; [apply sorted_map, sortedb_ok, H1|]. split; [rewrite map_length; apply Nat.leb_le, H2|].
  apply within_ok, H3.
Qed.
Lemma shape_okb_ok n1 n2 n3 t : shape_okb n1 n2 n3 t = true -> shape_ok n1 n2 n3 (map (map (map zR)) t).
Proof.
  unfold shape_okb, shape_ok. rewrite andb_true_iff, forallb_forall. intros [H1 H2]. rewrite map_length. split; [apply Nat.eqb_eq, H1|].
  intros pl Hpl. apply in_map_iff in Hpl as [pz [<- Hpz]]. specialize (H2 pz Hpz). apply andb_true_iff in H2 as [H2 H3]. rewrite map_length. split; [apply Nat.eqb_eq, H2|].
  intros r Hr. apply in_map_iff in Hr as [rz [<- Hrz]]. rewrite map_length. rewrite forallb_forall in H3. apply Nat.eqb_eq, H3, Hrz.
Qed.
Lemma map_okb_ok m : map_okb m = true -> map_ok m.
Proof.
  unfold map_okb, map_ok. destruct (mz_params m) as [|p1 [|p2 [|p3 [|? ?]]]]; try discriminate. rewrite !andb_true_iff, !negb_true_iff, !String.eqb_neq.
  intros [[[[[[[[H1 H2] H3] H4] H5] H6] H7] H8] H9]. exists p1, p2, p3. split; [reflexivity|]. repeat (split; [apply grid_okb_ok; assumption|]). split; [|split; [|split]].
  - repeat constructor; cbn; intuition.
  - rewrite forallb_forall in H7. intros o Ho. unfold p_grid. rewrite !map_length. apply shape_okb_ok. exact (H7 o Ho).
  - rewrite forallb_forall in H8. intros p v Hp Hv. specialize (H8 p Hp). rewrite Hv in H8. apply within_ok. exact H8.
  - intros s Hs. rewrite Hs in H9. apply andb_true_iff in H9 as [H9 H10]. apply String.eqb_eq in H9. split; [exact H9|apply within_ok; exact H10].
Qed.
Theorem C46_maps : forall m, In m shipped_maps -> map_ok m.
Proof. intros m Hm. apply map_okb_ok. revert m Hm. apply forallb_forall. vm_compute. reflexivity. Qed.
Print Assumptions C46_maps.

(* ---------- C46: thermochemical data ---------- *)
Definition dq (d : dec) : Q := match snd d with Z0 => (fst d # 1) | Zpos p => (fst d * Z.pow_pos 10 p # 1) | Zneg p => (fst d # Pos.pow 10 p) end.
Lemma pow10_R p : IZR (Z.pow_pos 10 p) = 10 ^ Pos.to_nat p.
Proof. change (Z.pow_pos 10 p) with (10 ^ Zpos p)%Z. rewrite <- (positive_nat_Z p) at 1. rewrite <- pow_IZR. reflexivity. Qed.
Lemma dq_R d : Q2R (dq d) = dR d.
Proof.
  destruct d as [m [|p|p]]; unfold dq, dR, Q2R; cbn [fst snd Qnum Qden powerRZ].
  - field.
  - rewrite mult_IZR, pow10_R. field.
  - f_equal. f_equal. rewrite <- pow10_R. f_equal. rewrite <- Pos2Z.inj_pow_pos. reflexivity.
Qed.
Lemma dq_lt a b : negb (Qle_bool (dq b) (dq a)) = true -> dR a < dR b.
Proof. intros H. rewrite <- !dq_R. apply Qlt_Rlt. apply Qnot_le_lt. rewrite <- Qle_bool_iff. apply negb_true_iff in H. congruence. Qed.
Definition known_pos (ws : dict R) (d : dict R) : Prop := forall e n, In (e, n) d -> 0 < n /\ exists w, dget ws e = Some w /\ 0 < w.
Definition product_ok (ws : dict R) (s : species) : Prop :=
  List.length (sp_ranges s) = S (List.length (sp_coeffs s)) /\ (1 <= List.length (sp_coeffs s))%nat /\ StronglySorted Rlt (sp_ranges s) /\
  (forall t, In t (sp_ranges s) -> 0 < t) /\ (forall row, In row (sp_coeffs s) -> List.length row = 9%nat) /\ 0 < sp_wt s /\
  sp_elems s <> [] /\ NoDup (dkeys (sp_elems s)) /\ known_pos ws (sp_elems s).
Definition d0 : dec := (0, 0)%Z.
Definition ltd (a b : dec) : bool := negb (Qle_bool (dq b) (dq a)).
Fixpoint sortedd (l : list dec) : bool := match l with a :: r => forallb (ltd a) r && sortedd r | [] => true end.
Fixpoint nodups (l : list string) : bool := match l with a :: r => negb (str_in a r) && nodups r | [] => true end.
Definition known_posb (ws : dict dec) (d : dict dec) : bool :=
  forallb (fun en => ltd d0 (snd en) && match dget ws (fst en) with Some w => ltd d0 w | None => false end) d.
Definition product_okb (ws : dict dec) (s : spD) : bool :=
  Nat.eqb (List.length (d_ranges s)) (S (List.length (d_coeffs s))) && Nat.leb 1 (List.length (d_coeffs s)) && sortedd (d_ranges s) && forallb (ltd d0) (d_ranges s) &&
  forallb (fun r => Nat.eqb (List.length r) 9) (d_coeffs s) && ltd d0 (d_wt s) && negb (Nat.eqb (List.length (d_elems s)) 0) && nodups (dkeys (d_elems s)) && known_posb ws (d_elems s).
Lemma dR_0 : dR d0 = 0. Proof. unfold dR, d0. cbn. lra. Qed.
Lemma ltd_pos a : ltd d0 a = true -> 0 < dR a.
Proof. intros H. rewrite <- dR_0. apply dq_lt. exact H. Qed.
Lemma dget_dictR d e : dget (dictR d) e = option_map dR (dget d e).
Proof. unfold dictR. induction d as [|[k v] r IH]; cbn; [reflexivity|]. destruct (String.eqb e k); [reflexivity|exact IH]. Qed.
Lemma dkeys_dictR d : dkeys (dictR d) = dkeys d.
Proof. unfold dictR, dkeys. rewrite map_map. reflexivity. Qed.
Lemma nodups_ok l : nodups l = true -> NoDup l.
Proof. induction l as [|a r IH]; cbn; intros H; [constructor|]. apply andb_true_iff in H as [H1 H2]. constructor; [|auto]. apply negb_true_iff, str_in_false in H1. exact H1. Qed.
Lemma known_posb_ok ws d : known_posb ws d = true -> known_pos (dictR ws) (dictR d).
Proof.
  unfold known_posb. rewrite forallb_forall. intros H e n Hin. unfold dictR in Hin. apply in_map_iff in Hin as [[e' n'] [He Hin]]. inversion He; subst. specialize (H _ Hin). cbn in H.
  apply andb_true_iff in H as [H1 H2]. split; [apply ltd_pos, H1|]. rewrite dget_dictR. destruct (dget ws e) as [w|]; [|discriminate]. exists (dR w). split; [reflexivity|apply ltd_pos, H2].
Qed.
Lemma product_okb_ok ws s : product_okb ws s = true -> product_ok (dictR ws) (spR s).
Proof.
  unfold product_okb, product_ok, spR. cbn [sp_ranges sp_coeffs sp_wt sp_elems]. rewrite !andb_true_iff, !forallb_forall. intros [[[[[[[[H1 H2] H3] H4] H5] H6] H7] H8] H9].
  rewrite !map_length. split; [apply Nat.eqb_eq, H1|]. split; [apply Nat.leb_le, H2|]. split; [|split; [|split; [|split; [|split; [|split]]]]].
  - clear -H3. induction (d_ranges s) as [|a r IH]; cbn in *; [constructor|]. apply andb_true_iff in H3 as [A B]. constructor; [auto|]. rewrite Forall_map. apply Forall_forall.
    rewrite forallb_forall in A. intros x Hx. apply dq_lt, A, Hx.
  - intros t Ht. apply in_map_iff in Ht as [a [<- Ha]]. apply ltd_pos, H4, Ha.
  - intros row Hr. apply in_map_iff in Hr as [rz [<- Hrz]]. rewrite map_length. apply Nat.eqb_eq, H5, Hrz.
  - apply ltd_pos, H6.
  - unfold dictR. destruct (d_elems s); [discriminate H7|discriminate].
  - rewrite dkeys_dictR. apply nodups_ok, H8.
  - apply known_posb_ok, H9.
Qed.
(* every product of every shipped thermo data module has one more temperature break than coefficient rows, strictly ascending positive breaks, nine
   coefficients per row, a positive weight and only elements of known positive weight; every reactant too *)
Theorem C46_thermo_data : forall s, In s shipped_specs ->
  NoDup (dkeys (products (specR s))) /\ NoDup (dkeys (element_wts (specR s))) /\
  (forall name p, In (name, p) (products (specR s)) -> product_ok (element_wts (specR s)) p) /\
  (forall name d, In (name, d) (reactants (specR s)) -> d <> [] /\ NoDup (dkeys d) /\ known_pos (element_wts (specR s)) d).
Proof.
  assert (K : forallb (fun s => nodups (dkeys (d_products s)) && nodups (dkeys (d_element_wts s)) && forallb (fun kv => product_okb (d_element_wts s) (snd kv)) (d_products s) &&
    forallb (fun kv => negb (Nat.eqb (List.length (snd kv)) 0) && nodups (dkeys (snd kv)) && known_posb (d_element_wts s) (snd kv)) (d_reactants s)) shipped_specs = true) by (vm_compute; reflexivity).
  intros s Hs. rewrite forallb_forall in K. specialize (K s Hs). rewrite !andb_true_iff in K. destruct K as [[[K0 K0'] K1] K2]. rewrite !forallb_forall in *. split; [|split; [|split]].
  - unfold specR, dkeys. cbn. rewrite map_map. apply nodups_ok. exact K0.
  - change (element_wts (specR s)) with (dictR (d_element_wts s)). rewrite dkeys_dictR. apply nodups_ok. exact K0'.
  - intros name p Hp. unfold specR in *. cbn in Hp. apply in_map_iff in Hp as [[n sp] [He Hp]]. inversion He; subst. apply product_okb_ok. exact (K1 _ Hp).
  - intros name d Hd. unfold specR in *. cbn in Hd. apply in_map_iff in Hd as [[n dz] [He Hd]]. inversion He; subst. specialize (K2 _ Hd). cbn in K2. rewrite !andb_true_iff in K2. destruct K2 as [[A B] C].
    split; [|split]; [destruct dz; [discriminate A|discriminate]|rewrite dkeys_dictR; apply nodups_ok, B|apply known_posb_ok, C].
Qed.
Print Assumptions C46_thermo_data.
(* the weight of a product is the sum of the weights of its atoms, for every product without carbon and for all of co2_co_o2 *)
Definition atoms_weight (ws : dict R) (s : species) : R := lsum (fun en => snd en * dgetd ws (fst en) 0) (sp_elems s).
Definition atoms_q (ws : dict dec) (s : spD) : Q := fold_right (fun en a => (dq (snd en) * match dget ws (fst en) with Some w => dq w | None => 0 end + a)%Q) 0%Q (d_elems s).
Lemma atoms_R ws s : Q2R (atoms_q ws s) = atoms_weight (dictR ws) (spR s).
Proof.
  unfold atoms_q, atoms_weight, spR. cbn [sp_elems]. unfold dictR at 2. induction (d_elems s) as [|[e n] r IH]; cbn [fold_right map lsum fst snd].
  - unfold Q2R. cbn. lra.
  - rewrite Q2R_plus, Q2R_mult, IH, dq_R. f_equal. f_equal. unfold dgetd. rewrite dget_dictR. destruct (dget ws e); cbn [option_map]; [apply dq_R|unfold Q2R; cbn; lra].
Qed.
Theorem C46_weights_partial : forall s, In s shipped_specs -> forall name p, In (name, p) (products (specR s)) ->
  s = co2_co_o2_dec \/ ~ In "C" (dkeys (sp_elems p)) -> sp_wt p = atoms_weight (element_wts (specR s)) p.
Proof.
  assert (K : forallb (fun si => forallb (fun kv => (negb (Nat.eqb (snd si) 1) && str_in "C" (dkeys (d_elems (snd kv)))) || Qeq_bool (dq (d_wt (snd kv))) (atoms_q (d_element_wts (fst si)) (snd kv))) (d_products (fst si)))
    (combine shipped_specs [0%nat; 1%nat; 2%nat]) = true) by (vm_compute; reflexivity).
  intros s Hs name p Hp Hc. rewrite forallb_forall in K.
  assert (Hi : exists i, In (s, i) (combine shipped_specs [0%nat; 1%nat; 2%nat]) /\ (s = co2_co_o2_dec -> i = 1%nat)).
  { destruct Hs as [<-|[<-|[<-|[]]]]; [exists 0%nat|exists 1%nat|exists 2%nat]; (split; [cbn; auto|]); intros X; try reflexivity; exfalso;
      apply (f_equal (fun s => List.length (d_products s))) in X; vm_compute in X; discriminate. }
  destruct Hi as [i [Hi Hi1]]. specialize (K _ Hi). cbn [fst snd] in K. rewrite forallb_forall in K.
  unfold specR in *. cbn in Hp. apply in_map_iff in Hp as [[n sp] [He Hp]]. inversion He; subst. specialize (K _ Hp). cbn [fst snd] in K. apply orb_true_iff in K as [K|K].
  - exfalso. apply andb_true_iff in K as [K1 K2]. apply str_in_iff in K2. destruct Hc as [Hc|Hc]; [rewrite (Hi1 Hc) in K1; discriminate|].
    apply Hc. unfold spR. cbn [sp_elems]. rewrite dkeys_dictR. exact K2.
  - apply Qeq_bool_eq, Qeq_eqR in K. rewrite dq_R, atoms_R in K. exact K.
Qed.
Print Assumptions C46_weights_partial.
(* refuted for the carbon products of janaf: the atomic weight listed for carbon (12.0170) is not the one used in the molecular weights (12.0107) *)
Theorem C46_weights_refuted : forall name p, In (name, p) (products (specR janaf_dec)) -> In "C" (dkeys (sp_elems p)) -> sp_wt p < atoms_weight (element_wts (specR janaf_dec)) p.
Proof.
  assert (K : forallb (fun kv => negb (str_in "C" (dkeys (d_elems (snd kv)))) || negb (Qle_bool (atoms_q (d_element_wts janaf_dec) (snd kv)) (dq (d_wt (snd kv))))) (d_products janaf_dec) = true) by (vm_compute; reflexivity).
  intros name p Hp Hc. rewrite forallb_forall in K. change (products (specR janaf_dec)) with (map (fun kv : string * spD => (fst kv, spR (snd kv))) (d_products janaf_dec)) in Hp.
  apply in_map_iff in Hp as [[n sp] [He Hp]]. inversion He; subst. specialize (K _ Hp). cbn [fst snd] in K. unfold spR in Hc. cbn [sp_elems] in Hc. rewrite dkeys_dictR in Hc.
  apply str_in_iff in Hc. rewrite Hc in K. cbn [negb orb] in K. change (sp_wt (spR sp)) with (dR (d_wt sp)). change (element_wts (specR janaf_dec)) with (dictR (d_element_wts janaf_dec)).
  rewrite <- dq_R, <- atoms_R. apply Qlt_Rlt. apply Qnot_le_lt. rewrite <- Qle_bool_iff. apply negb_true_iff in K. congruence.
Qed.
Print Assumptions C46_weights_refuted.
Example C46_example : In janaf_dec shipped_specs /\ (exists p, In ("CO2", p) (products (specR janaf_dec)) /\ In "C" (dkeys (sp_elems p))) /\
  (exists p, In ("H2O", p) (products (specR janaf_dec)) /\ ~ In "C" (dkeys (sp_elems p))) /\ In FanMap_z shipped_maps /\ mz_outputs FanMap_z <> [].
Proof.
  split; [left; reflexivity|]. split; [|split; [|split; [left; reflexivity|discriminate]]].
  - assert (K : exists sp, In ("CO2", sp) (d_products janaf_dec) /\ dkeys (d_elems sp) = ["C"; "O"]) by (eexists; split; [cbn; tauto|reflexivity]).
    destruct K as [sp [K1 K2]]. exists (spR sp). split; [apply (in_map (fun kv : string * spD => (fst kv, spR (snd kv))) _ _ K1)|].
    unfold spR. cbn [sp_elems]. rewrite dkeys_dictR, K2. left. reflexivity.
  - assert (K : exists sp, In ("H2O", sp) (d_products janaf_dec) /\ dkeys (d_elems sp) = ["H"; "O"]) by (eexists; split; [cbn; tauto|reflexivity]).
    destruct K as [sp [K1 K2]]. exists (spR sp). split; [apply (in_map (fun kv : string * spD => (fst kv, spR (snd kv))) _ _ K1)|].
    unfold spR. cbn [sp_elems]. rewrite dkeys_dictR, K2. cbn. intuition discriminate.
Qed.

(* ---------- C52 ---------- *)
Definition convex (P : R -> Prop) : Prop := forall a b t, 0 <= t <= 1 -> P a -> P b -> P (a + (b - a) * t).
Lemma in_grid_tail a b g x : in_grid (a :: b :: g) x -> b <= x -> in_grid (b :: g) x.
Proof.
  intros [lo [hi [H1 [H2 [H3 H4]]]]] Hb. exists b, hi. split; [reflexivity|]. split; [|lra].
  cbn [rev] in H2 |- *. destruct (rev g ++ (b :: nil)) as [|z zs] eqn:Ez; [destruct (rev g); discriminate|]. exact H2.
Qed.
Lemma frac_01 a b x : a < b -> a <= x <= b -> 0 <= (x - a) / (b - a) <= 1.
Proof.
  intros H1 H2. split.
  - apply Rmult_le_pos; [lra|]. left. apply Rinv_0_lt_compat. lra.
  - apply (Rmult_le_reg_r (b - a)); [lra|]. unfold Rdiv. rewrite Rmult_assoc, Rinv_l by lra. lra.
Qed.
Lemma lin_convex P g : convex P -> StronglySorted Rlt g -> (2 <= List.length g)%nat -> forall v x, List.length v = List.length g -> (forall a, In a v -> P a) -> in_grid g x -> P (lin g v x).
Proof.
  intros Hc. induction g as [|a g IH]; intros Hs Hl v x Hv HP Hx; [cbn in Hl; lia|]. destruct g as [|b g]; [cbn in Hl; lia|].
  destruct v as [|va [|vb v]]; try (cbn in Hv; lia). inversion Hs as [|? ? Hs' Hf]; subst. inversion Hf as [|? ? Hab _]; subst.
  assert (Pa : P va) by (apply HP; left; reflexivity). assert (Pb : P vb) by (apply HP; right; left; reflexivity).
  pose proof Hx as [lo [hi [H1 [H2 H3]]]]. cbn in H1. inversion H1; subst lo. destruct g as [|c g].
  - cbn in H2. inversion H2; subst hi. cbn [lin]. apply Hc; [apply frac_01; assumption|exact Pa|exact Pb].
  - change (lin (a :: b :: c :: g) (va :: vb :: v) x) with (if Rlt_dec x b then va + (vb - va) * ((x - a) / (b - a)) else lin (b :: c :: g) (vb :: v) x).
    destruct (Rlt_dec x b) as [L|L]; [apply Hc; [apply frac_01; [exact Hab|lra]|exact Pa|exact Pb]|].
    apply IH; [exact Hs'|cbn; lia|cbn in *; lia|intros; apply HP; right; assumption|apply (in_grid_tail a); [exact Hx|lra]].
Qed.
Lemma lin_node g : StronglySorted Rlt g -> (2 <= List.length g)%nat -> forall v i x r, List.length v = List.length g -> nth_error g i = Some x -> nth_error v i = Some r -> lin g v x = r.
Proof.
  induction g as [|a g IH]; intros Hs Hl v i x r Hv Hx Hr; [cbn in Hl; lia|]. destruct g as [|b g]; [cbn in Hl; lia|].
  destruct v as [|va [|vb v]]; try (cbn in Hv; lia). inversion Hs as [|? ? Hs' Hf]; subst. inversion Hf as [|? ? Hab _]; subst.
  destruct i as [|i].
  - cbn in Hx, Hr. inversion Hx; inversion Hr; subst. assert (E : r + (vb - r) * ((x - x) / (b - x)) = r) by (field; lra).
    destruct g as [|c g]; cbn [lin]; [exact E|]. destruct (Rlt_dec x b); [exact E|lra].
  - destruct g as [|c g].
    + destruct i as [|i]; [|destruct i; discriminate]. cbn in Hx, Hr. inversion Hx; inversion Hr; subst. cbn [lin]. field. lra.
    + change (lin (a :: b :: c :: g) (va :: vb :: v) x) with (if Rlt_dec x b then va + (vb - va) * ((x - a) / (b - a)) else lin (b :: c :: g) (vb :: v) x).
      cbn [nth_error] in Hx, Hr. assert (b <= x).
      { destruct i as [|i]; [cbn in Hx; inversion Hx; lra|]. inversion Hs' as [|? ? _ Hf']; subst. change (nth_error (c :: g) i = Some x) in Hx. apply nth_error_In in Hx. rewrite Forall_forall in Hf'. left. apply Hf'. exact Hx. }
      destruct (Rlt_dec x b); [lra|]. apply (IH Hs' ltac:(cbn; lia) _ i); [cbn in *; lia|exact Hx|exact Hr].
Qed.
Lemma lookup_inv m o x y z r : map_ok m -> lookup_map m o x y z r -> In o (mz_outputs m) -> exists p1 p2 p3, mz_params m = [p1; p2; p3] /\ grid_ok p1 /\ grid_ok p2 /\ grid_ok p3 /\
  shape_ok (List.length (p_grid p1)) (List.length (p_grid p2)) (List.length (p_grid p3)) (o_table o) /\
  in_grid (p_grid p1) x /\ in_grid (p_grid p2) y /\ in_grid (p_grid p3) z /\ r = slinear3 (p_grid p1) (p_grid p2) (p_grid p3) (o_table o) x y z.
Proof.
  intros [p1 [p2 [p3 [E [G1 [G2 [G3 [_ [Sh _]]]]]]]]] [q1 [q2 [q3 [E' [X [Y [Z Hr]]]]]]] Ho. rewrite E in E'. inversion E'; subst q1 q2 q3. exists p1, p2, p3. repeat (split; [assumption|]). split; [apply Sh, Ho|]. auto.
Qed.
Lemma lookup_convex P m o x y z r : convex P -> map_ok m -> In o (mz_outputs m) -> (forall pl row a, In pl (o_table o) -> In row pl -> In a row -> P a) -> lookup_map m o x y z r -> P r.
Proof.
  intros Hc Hm Ho HP Hl. destruct (lookup_inv m o x y z r Hm Hl Ho) as [p1 [p2 [p3 [_ [[S1 [L1 _]] [[S2 [L2 _]] [[S3 [L3 _]] [[T1 T2] [X [Y [Z ->]]]]]]]]]]]. unfold slinear3.
  apply lin_convex; [exact Hc|exact S1|exact L1|rewrite map_length; exact T1| |exact X]. intros a Ha. apply in_map_iff in Ha as [pl [<- Hpl]]. destruct (T2 pl Hpl) as [T3 T4].
  apply lin_convex; [exact Hc|exact S2|exact L2|rewrite map_length; exact T3| |exact Y]. intros b Hb. apply in_map_iff in Hb as [row [<- Hrow]].
  apply lin_convex; [exact Hc|exact S3|exact L3|apply T4; exact Hrow| |exact Z]. intros c Hcr. exact (HP pl row c Hpl Hrow Hcr).
Qed.
(* a lookup at a grid point returns the number listed for it *)
Theorem C52_nodes : forall m o p1 p2 p3 i j k x y z pl row r, In m shipped_maps -> In o (mz_outputs m) -> mz_params m = [p1; p2; p3] ->
  nth_error (p_grid p1) i = Some x -> nth_error (p_grid p2) j = Some y -> nth_error (p_grid p3) k = Some z ->
  nth_error (o_table o) i = Some pl -> nth_error pl j = Some row -> nth_error row k = Some r -> forall v, lookup_map m o x y z v -> v = r.
Proof.
  intros m o p1 p2 p3 i j k x y z pl row r Hm Ho Hp Hx Hy Hz H1 H2 H3 v Hv.
  destruct (lookup_inv m o x y z v (C46_maps m Hm) Hv Ho) as [q1 [q2 [q3 [E [[S1 [L1 _]] [[S2 [L2 _]] [[S3 [L3 _]] [[T1 T2] [X [Y [Z ->]]]]]]]]]]].
  rewrite Hp in E. inversion E; subst q1 q2 q3. unfold slinear3. destruct (T2 pl (nth_error_In _ _ H1)) as [T3 T4].
  apply (lin_node _ S1 L1 _ i); [rewrite map_length; exact T1|exact Hx|]. rewrite nth_error_map, H1. cbn [option_map]. f_equal.
  apply (lin_node _ S2 L2 _ j); [rewrite map_length; exact T3|exact Hy|]. rewrite nth_error_map, H2. cbn [option_map]. f_equal.
  apply (lin_node _ S3 L3 _ k); [apply T4, (nth_error_In _ _ H2)|exact Hz|exact H3].
Qed.
Print Assumptions C52_nodes.
(* lookups anywhere inside the grid are physical: efficiencies in [0,1), flows positive, pressure ratios at least 1; and one exists for every point of the grid *)
Definition all_in (f : Z -> bool) (o : string * string * list (list (list Z))) : bool := forallb (forallb (forallb f)) (snd o).
Lemma all_in_ok f o (P : R -> Prop) : (forall z, f z = true -> P (zR z)) -> all_in f o = true -> forall pl row a, In pl (o_table o) -> In row pl -> In a row -> P a.
Proof.
  intros H Ha pl row a H1 H2 H3. unfold o_table in H1. apply in_map_iff in H1 as [pz [<- H1]]. apply in_map_iff in H2 as [rz [<- H2]]. apply in_map_iff in H3 as [z [<- H3]].
  apply H. unfold all_in in Ha. rewrite forallb_forall in Ha. specialize (Ha _ H1). rewrite forallb_forall in Ha. specialize (Ha _ H2). rewrite forallb_forall in Ha. exact (Ha _ H3).
Qed.
Lemma convex_ge c : convex (fun x => c <= x).
Proof. intros a b t [H1 H2] Ha Hb. assert (0 <= (a - c) * (1 - t)) by (apply Rmult_le_pos; lra). assert (0 <= (b - c) * t) by (apply Rmult_le_pos; lra). lra. Qed.
Lemma convex_gt c : convex (fun x => c < x).
Proof.
  intros a b t [H1 H2] Ha Hb. destruct (Req_dec t 0) as [->|N]; [lra|]. assert (0 <= (a - c) * (1 - t)) by (apply Rmult_le_pos; lra). assert (0 < (b - c) * t) by (apply Rmult_lt_0_compat; lra). lra.
Qed.
Lemma convex_lt c : convex (fun x => x < c).
Proof.
  intros a b t [H1 H2] Ha Hb. destruct (Req_dec t 0) as [->|N]; [lra|]. assert (0 <= (c - a) * (1 - t)) by (apply Rmult_le_pos; lra). assert (0 < (c - b) * t) by (apply Rmult_lt_0_compat; lra). lra.
Qed.
Lemma bounds_check : forallb (fun m => forallb (fun o =>
    (negb (String.eqb (o_name o) "effMap") || all_in (fun z => Z.leb 0 z && Z.ltb z 10000) o) &&
    (negb (String.eqb (o_name o) "WcMap" || String.eqb (o_name o) "WpMap") || all_in (fun z => Z.ltb 0 z) o) &&
    (negb (String.eqb (o_name o) "PRmap") || all_in (fun z => Z.leb 10000 z) o)) (mz_outputs m)) shipped_maps = true.
Proof. vm_compute. reflexivity. Qed.
Theorem C52_physical : forall m o x y z r, In m shipped_maps -> In o (mz_outputs m) -> lookup_map m o x y z r ->
  (o_name o = "effMap" -> 0 <= r < 1) /\ (o_name o = "WcMap" \/ o_name o = "WpMap" -> 0 < r) /\ (o_name o = "PRmap" -> 1 <= r).
Proof.
  intros m o x y z r Hm Ho Hr. pose proof (C46_maps m Hm) as Ok. pose proof bounds_check as K. rewrite forallb_forall in K. specialize (K m Hm). rewrite forallb_forall in K. specialize (K o Ho).
  rewrite !andb_true_iff, !orb_true_iff, !negb_true_iff in K. destruct K as [[K1 K2] K3]. split; [|split].
  - intros E. destruct K1 as [K1|K1]; [apply String.eqb_neq in K1; congruence|]. split.
    + apply (lookup_convex (fun r => 0 <= r) m o x y z r (convex_ge 0) Ok Ho); [|exact Hr]. apply (all_in_ok _ _ (fun r => 0 <= r) ltac:(intros z0 H; apply andb_true_iff in H as [H _]; apply Z.leb_le in H; cbv beta; rewrite <- zR_0; apply zR_le, H) K1).
    + apply (lookup_convex (fun r => r < 1) m o x y z r (convex_lt 1) Ok Ho); [|exact Hr]. apply (all_in_ok _ _ (fun r => r < 1) ltac:(intros z0 H; apply andb_true_iff in H as [_ H]; apply Z.ltb_lt in H; cbv beta; rewrite <- zR_1; apply zR_lt, H) K1).
  - intros E. destruct K2 as [K2|K2]; [exfalso; apply orb_false_iff in K2 as [A B]; apply String.eqb_neq in A, B; tauto|].
    apply (lookup_convex (fun r => 0 < r) m o x y z r (convex_gt 0) Ok Ho); [|exact Hr]. apply (all_in_ok _ _ (fun r => 0 < r) ltac:(intros z0 H; apply Z.ltb_lt in H; cbv beta; rewrite <- zR_0; apply zR_lt, H) K2).
  - intros E. destruct K3 as [K3|K3]; [apply String.eqb_neq in K3; congruence|].
    apply (lookup_convex (fun r => 1 <= r) m o x y z r (convex_ge 1) Ok Ho); [|exact Hr]. apply (all_in_ok _ _ (fun r => 1 <= r) ltac:(intros z0 H; apply Z.leb_le in H; cbv beta; rewrite <- zR_1; apply zR_le, H) K3).
Qed.
Print Assumptions C52_physical.
(* ... and the lookup exists everywhere inside the grid (outside, OpenMDAO raises an error) *)
Theorem C52_defined : forall m o p1 p2 p3 x y z, In m shipped_maps -> In o (mz_outputs m) -> mz_params m = [p1; p2; p3] ->
  (exists r, lookup_map m o x y z r) <-> in_grid (p_grid p1) x /\ in_grid (p_grid p2) y /\ in_grid (p_grid p3) z.
Proof.
  intros m o p1 p2 p3 x y z Hm Ho Hp. split.
  - intros [r [q1 [q2 [q3 [E [X [Y [Z _]]]]]]]]. rewrite Hp in E. inversion E; subst. auto.
  - intros [X [Y Z]]. eexists. exists p1, p2, p3. split; [exact Hp|]. auto.
Qed.
Print Assumptions C52_defined.
(* zero is attained: efficiencies are not all positive, so the design scalar eff / effMap is not defined everywhere in the grid *)
Theorem C52_zero_efficiency : exists m o x y z, In m shipped_maps /\ In o (mz_outputs m) /\ o_name o = "effMap" /\ lookup_map m o x y z 0.
Proof.
  assert (K : exists o p1 p2 p3 i j k x y z pl row, In o (mz_outputs FanMap_z) /\ o_name o = "effMap" /\ mz_params FanMap_z = [p1; p2; p3] /\
    nth_error (snd p1) i = Some x /\ nth_error (snd p2) j = Some y /\ nth_error (snd p3) k = Some z /\ nth_error (snd o) i = Some pl /\ nth_error pl j = Some row /\ nth_error row k = Some 0%Z /\
    within (snd p1) x = true /\ within (snd p2) y = true /\ within (snd p3) z = true).
  { do 4 eexists. exists 0%nat, 0%nat, 10%nat. do 5 eexists. split; [right; left; reflexivity|]. repeat (split; [reflexivity|]). reflexivity. }
  destruct K as [o [p1 [p2 [p3 [i [j [k [x [y [z [pl [row [Ho [Hn [Hp [H1 [H2 [H3 [H4 [H5 [H6 [W1 [W2 W3]]]]]]]]]]]]]]]]]]]]]]].
  assert (Hm : In FanMap_z shipped_maps) by (left; reflexivity).
  destruct (proj2 (C52_defined FanMap_z o p1 p2 p3 (zR x) (zR y) (zR z) Hm Ho Hp)) as [r Hr]; [split; [|split]; apply within_ok; assumption|].
  exists FanMap_z, o, (zR x), (zR y), (zR z). split; [exact Hm|]. split; [exact Ho|]. split; [exact Hn|].
  enough (r = 0) by (subst r; exact Hr). rewrite <- zR_0.
  apply (C52_nodes FanMap_z o p1 p2 p3 i j k (zR x) (zR y) (zR z) (map (map zR) pl) (map zR row) (zR 0) Hm Ho Hp);
    unfold p_grid, o_table; try (rewrite nth_error_map); try (rewrite H1); try (rewrite H2); try (rewrite H3); try (rewrite H4); try (rewrite H5); try (rewrite H6); try reflexivity. exact Hr.
Qed.
Print Assumptions C52_zero_efficiency.

(* at the design point of every shipped map (MapData.defaults) the efficiency is positive and pressure ratios are above one, so every design scalar is defined *)
Open Scope Q_scope.
Fixpoint linq (g v : list Q) (x : Q) : Q :=
  match g, v with
  | a :: ((b :: g') as gr), va :: ((vb :: _) as vr) =>
      match g' with
      | [] => va + (vb - va) * ((x - a) / (b - a))
      | _ :: _ => if Qlt_le_dec x b then va + (vb - va) * ((x - a) / (b - a)) else linq gr vr x
      end
  | _, _ => 0
  end.
Fixpoint sortedq (l : list Q) : bool := match l with a :: r => match r with b :: _ => negb (Qle_bool b a) && sortedq r | [] => true end | [] => true end.
Open Scope R_scope.
Lemma Q2R_0 : Q2R 0 = 0. Proof. unfold Q2R. cbn. lra. Qed.
Lemma nle_lt a b : negb (Qle_bool b a) = true -> (a < b)%Q.
Proof. intros H. apply Qnot_le_lt. rewrite <- Qle_bool_iff. apply negb_true_iff in H. congruence. Qed.
Lemma linq_R g : sortedq g = true -> forall v x, Q2R (linq g v x) = lin (map Q2R g) (map Q2R v) (Q2R x).
Proof.
  induction g as [|a g IH]; intros Hs v x; [apply Q2R_0|]. destruct g as [|b g]; [destruct v as [|? [|? ?]]; apply Q2R_0|].
  cbn [sortedq] in Hs. apply andb_true_iff in Hs as [Hab Hs]. apply nle_lt in Hab.
  destruct v as [|va [|vb v]]; [apply Q2R_0|apply Q2R_0|].
  assert (N : ~ (b - a == 0)%Q) by (intros E; apply (Qlt_irrefl a); apply Qlt_le_trans with b; [exact Hab|]; rewrite <- (Qplus_0_l a), <- E; ring_simplify; apply Qle_refl).
  assert (F : Q2R (va + (vb - va) * ((x - a) / (b - a))) = Q2R va + (Q2R vb - Q2R va) * ((Q2R x - Q2R a) / (Q2R b - Q2R a))).
  { rewrite Q2R_plus, Q2R_mult, Q2R_div by exact N. rewrite !Q2R_minus. reflexivity. }
  destruct g as [|c g]; [exact F|].
  change (linq (a :: b :: c :: g) (va :: vb :: v) x) with (if Qlt_le_dec x b then (va + (vb - va) * ((x - a) / (b - a)))%Q else linq (b :: c :: g) (vb :: v) x).
  change (lin (map Q2R (a :: b :: c :: g)) (map Q2R (va :: vb :: v)) (Q2R x)) with
    (if Rlt_dec (Q2R x) (Q2R b) then Q2R va + (Q2R vb - Q2R va) * ((Q2R x - Q2R a) / (Q2R b - Q2R a)) else lin (map Q2R (b :: c :: g)) (map Q2R (vb :: v)) (Q2R x)).
  destruct (Qlt_le_dec x b) as [L|L], (Rlt_dec (Q2R x) (Q2R b)) as [L'|L'].
  - exact F.
  - exfalso. apply L', Qlt_Rlt, L.
  - exfalso. apply Qle_Rle in L. lra.
  - apply IH. exact Hs.
Qed.
Definition zq (z : Z) : Q := z # 10000.
Lemma zq_R z : Q2R (zq z) = zR z.
Proof. unfold zq, zR, Q2R. cbn [Qnum Qden]. replace (10 ^ 4) with 10000 by lra. reflexivity. Qed.
Definition sl3q (g1 g2 g3 : list Z) (t : list (list (list Z))) (x y z : Z) : Q :=
  linq (map zq g1) (map (fun pl => linq (map zq g2) (map (fun row => linq (map zq g3) (map zq row) (zq z)) pl) (zq y)) t) (zq x).
Lemma map_zq l : map Q2R (map zq l) = map zR l.
Proof. rewrite map_map. apply map_ext, zq_R. Qed.
Lemma sl3q_R g1 g2 g3 t x y z : sortedq (map zq g1) = true -> sortedq (map zq g2) = true -> sortedq (map zq g3) = true ->
  Q2R (sl3q g1 g2 g3 t x y z) = slinear3 (map zR g1) (map zR g2) (map zR g3) (map (map (map zR)) t) (zR x) (zR y) (zR z).
Proof.
  intros H1 H2 H3. unfold sl3q, slinear3. rewrite linq_R by exact H1. rewrite map_zq, zq_R, !map_map. f_equal. apply map_ext. intros pl.
  rewrite linq_R by exact H2. rewrite map_zq, zq_R, !map_map. f_equal. apply map_ext. intros row. rewrite linq_R by exact H3. rewrite !map_zq, zq_R. reflexivity.
Qed.
Definition design_okb (m : mapZ) : bool :=
  match mz_params m with
  | [p1; p2; p3] =>
      sortedq (map zq (snd p1)) && sortedq (map zq (snd p2)) && sortedq (map zq (snd p3)) &&
      match dget (mz_defaults m) (p_name p1), dget (mz_defaults m) (p_name p2), dget (mz_defaults m) (p_name p3) with
      | Some x, Some y, Some z => forallb (fun o =>
          (negb (String.eqb (o_name o) "effMap") || negb (Qle_bool (sl3q (snd p1) (snd p2) (snd p3) (snd o) x y z) 0)) &&
          (negb (String.eqb (o_name o) "PRmap") || negb (Qle_bool (sl3q (snd p1) (snd p2) (snd p3) (snd o) x y z) 1))) (mz_outputs m)
      | _, _, _ => false
      end
  | _ => false
  end.
Lemma design_check : forallb design_okb shipped_maps = true.
Proof. vm_compute. reflexivity. Qed.
Theorem C52_design_point : forall m, In m shipped_maps -> exists p1 p2 p3 x y z, mz_params m = [p1; p2; p3] /\
  dget (mz_defaults m) (p_name p1) = Some x /\ dget (mz_defaults m) (p_name p2) = Some y /\ dget (mz_defaults m) (p_name p3) = Some z /\
  forall o, In o (mz_outputs m) -> exists r, lookup_map m o (zR x) (zR y) (zR z) r /\
    (o_name o = "effMap" -> 0 < r < 1) /\ (o_name o = "WcMap" \/ o_name o = "WpMap" -> 0 < r) /\ (o_name o = "PRmap" -> 1 < r).
Proof.
  intros m Hm. pose proof design_check as K. rewrite forallb_forall in K. specialize (K m Hm). unfold design_okb in K.
  destruct (mz_params m) as [|p1 [|p2 [|p3 [|? ?]]]] eqn:E; try discriminate. rewrite !andb_true_iff in K. destruct K as [[[S1 S2] S3] K].
  destruct (dget (mz_defaults m) (p_name p1)) as [x|] eqn:X; [|discriminate]. destruct (dget (mz_defaults m) (p_name p2)) as [y|] eqn:Y; [|discriminate].
  destruct (dget (mz_defaults m) (p_name p3)) as [z|] eqn:Z; [|discriminate]. exists p1, p2, p3, x, y, z. repeat (split; [assumption || reflexivity|]).
  intros o Ho. rewrite forallb_forall in K. specialize (K o Ho). destruct (C46_maps m Hm) as [q1 [q2 [q3 [E' [_ [_ [_ [_ [_ [D _]]]]]]]]]]. rewrite E in E'. inversion E'; subst q1 q2 q3.
  assert (G1 := D p1 x (or_introl eq_refl) X). assert (G2 := D p2 y (or_intror (or_introl eq_refl)) Y). assert (G3 := D p3 z (or_intror (or_intror (or_introl eq_refl))) Z).
  assert (L : lookup_map m o (zR x) (zR y) (zR z) (Q2R (sl3q (snd p1) (snd p2) (snd p3) (snd o) x y z))).
  { exists p1, p2, p3. repeat (split; [assumption|]). apply sl3q_R; assumption. }
  eexists. split; [exact L|]. destruct (C52_physical m o _ _ _ _ Hm Ho L) as [B1 [B2 B3]].
  apply andb_true_iff in K as [K1 K2]. apply orb_true_iff in K1, K2. split; [|split].
  - intros N. split; [|apply B1, N]. destruct K1 as [K1|K1]; [apply negb_true_iff, String.eqb_neq in K1; contradiction|]. rewrite <- Q2R_0. apply Qlt_Rlt, nle_lt, K1.
  - exact B2.
  - intros N. destruct K2 as [K2|K2]; [apply negb_true_iff, String.eqb_neq in K2; contradiction|]. replace 1 with (Q2R 1) by (unfold Q2R; cbn; lra). apply Qlt_Rlt, nle_lt, K2.
Qed.
Print Assumptions C52_design_point.
Example C52_example : exists o, In o (mz_outputs FanMap_z) /\ o_name o = "effMap" /\ exists r, lookup_map FanMap_z o (zR 0) (zR 10000) (zR 20000) r /\ 0 <= r < 1.
Proof.
  assert (K : exists o p1 p2 p3, In o (mz_outputs FanMap_z) /\ o_name o = "effMap" /\ mz_params FanMap_z = [p1; p2; p3] /\ within (snd p1) 0 = true /\ within (snd p2) 10000 = true /\ within (snd p3) 20000 = true).
  { do 4 eexists. split; [right; left; reflexivity|]. repeat (split; [reflexivity|]). reflexivity. }
  destruct K as [o [p1 [p2 [p3 [Ho [Hn [Hp [W1 [W2 W3]]]]]]]]]. exists o. split; [exact Ho|]. split; [exact Hn|].
  assert (Hm : In FanMap_z shipped_maps) by (left; reflexivity).
  destruct (proj2 (C52_defined FanMap_z o p1 p2 p3 (zR 0) (zR 10000) (zR 20000) Hm Ho Hp)) as [r Hr]; [split; [|split]; apply within_ok; assumption|].
  exists r. split; [exact Hr|]. apply (C52_physical FanMap_z o _ _ _ r Hm Ho Hr), Hn.
Qed.
