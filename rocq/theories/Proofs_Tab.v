(* Multilinear interpolation on a grid. *)
From Coq Require Import Lia Sorting.Sorted.
From Verif Require Import Lib_R Lib_Loop Model_Maps Model_Tab Prop_Data.
From Coquelicot Require Import Rbar Hierarchy Continuity.
Open Scope string_scope. Open Scope list_scope. Open Scope R_scope.

Definition axis_ok (g : list R) : Prop := StronglySorted Rlt g /\ (2 <= List.length g)%nat.
Lemma lin_step a b c g va vb v x : lin (a :: b :: c :: g) (va :: vb :: v) x = if Rlt_dec x b then va + (vb - va) * ((x - a) / (b - a)) else lin (b :: c :: g) (vb :: v) x.
Proof. reflexivity. Qed.
Lemma lin_two a b va vb v x : lin (a :: b :: nil) (va :: vb :: v) x = va + (vb - va) * ((x - a) / (b - a)).
Proof. reflexivity. Qed.
Lemma sorted_inv2 a b g : StronglySorted Rlt (a :: b :: g) -> a < b /\ StronglySorted Rlt (b :: g).
Proof. intros H. inversion H as [|? ? H1 H2]; subst. inversion H2; subst. auto. Qed.
Lemma sorted_nth g : StronglySorted Rlt g -> forall i j, (i < j)%nat -> (j < List.length g)%nat -> nth i g 0 < nth j g 0.
Proof.
  induction g as [|a g IH]; intros H i j Hij Hj; [cbn in Hj; lia|]. inversion H as [|? ? H1 H2]; subst. rewrite Forall_forall in H2.
  destruct j as [|j]; [lia|]. cbn [nth]. cbn in Hj. destruct i as [|i]; [apply H2, nth_In; lia|]. apply IH; [auto|lia|lia].
Qed.
(* in a cell that holds x, the interpolant is the chord *)
Lemma lin_at g : StronglySorted Rlt g -> (2 <= List.length g)%nat -> forall v i x, List.length v = List.length g -> (S i < List.length g)%nat -> nth i g 0 <= x <= nth (S i) g 0 ->
  lin g v x = nth i v 0 + (nth (S i) v 0 - nth i v 0) * ((x - nth i g 0) / (nth (S i) g 0 - nth i g 0)).
Proof.
  induction g as [|a g IH]; intros Hs Hl v i x Hv Hi Hx; [cbn in Hl; lia|]. destruct g as [|b g]; [cbn in Hl; lia|].
  destruct v as [|va [|vb v]]; try (cbn in Hv; lia). destruct (sorted_inv2 _ _ _ Hs) as [Hab Hs'].
  destruct g as [|c g].
  - destruct i as [|i]; [reflexivity|cbn in Hi; lia].
  - rewrite lin_step. destruct i as [|i].
    + cbn [nth] in *. destruct (Rlt_dec x b) as [L|L]; [reflexivity|]. assert (x = b) by lra. subst x.
      rewrite (lin_node (b :: c :: g) Hs' ltac:(cbn; lia) (vb :: v) 0%nat b vb); [field; lra|cbn in *; lia|reflexivity|reflexivity].
    + assert (B : b <= x). { apply Rle_trans with (nth (S i) (a :: b :: c :: g) 0); [|apply Hx]. change (nth 1 (a :: b :: c :: g) 0 <= nth (S i) (a :: b :: c :: g) 0).
        destruct i as [|i]; [lra|]. left. apply sorted_nth; [auto|lia|lia]. }
      destruct (Rlt_dec x b); [lra|]. change (nth (S i) (va :: vb :: v) 0) with (nth i (vb :: v) 0). change (nth (S (S i)) (va :: vb :: v) 0) with (nth (S i) (vb :: v) 0).
      change (nth (S i) (a :: b :: c :: g) 0) with (nth i (b :: c :: g) 0) in *. change (nth (S (S i)) (a :: b :: c :: g) 0) with (nth (S i) (b :: c :: g) 0) in *.
      apply IH; [auto|cbn; lia|cbn in *; lia|cbn in *; lia|auto].
Qed.
(* the interpolant is the extended chord of one of the cells *)
Lemma lin_cell g : (2 <= List.length g)%nat -> forall x, exists i, (S i < List.length g)%nat /\ (forall v, List.length v = List.length g ->
  lin g v x = nth i v 0 + (nth (S i) v 0 - nth i v 0) * ((x - nth i g 0) / (nth (S i) g 0 - nth i g 0))).
Proof.
  induction g as [|a g IH]; intros Hl x; [cbn in Hl; lia|]. destruct g as [|b g]; [cbn in Hl; lia|]. destruct g as [|c g].
  - exists 0%nat. split; [cbn; lia|]. intros [|va [|vb v]] Hv; try (cbn in Hv; lia). reflexivity.
  - destruct (Rlt_dec x b) as [L|L].
    + exists 0%nat. split; [cbn; lia|]. intros [|va [|vb v]] Hv; try (cbn in Hv; lia). rewrite lin_step. destruct (Rlt_dec x b); [reflexivity|contradiction].
    + destruct (IH ltac:(cbn; lia) x) as (i & Hi & K). exists (S i). split; [cbn in *; lia|]. intros [|va [|vb v]] Hv; try (cbn in Hv; lia). rewrite lin_step.
      destruct (Rlt_dec x b); [contradiction|]. rewrite (K (vb :: v)) by (cbn in *; lia). reflexivity.
Qed.
(* a point of the grid lies in a cell *)
Lemma in_cell g : StronglySorted Rlt g -> (2 <= List.length g)%nat -> forall x, in_grid g x -> exists i, (S i < List.length g)%nat /\ nth i g 0 <= x <= nth (S i) g 0.
Proof.
  induction g as [|a g IH]; intros Hs Hl x Hx; [cbn in Hl; lia|]. destruct g as [|b g]; [cbn in Hl; lia|]. destruct (sorted_inv2 _ _ _ Hs) as [Hab Hs'].
  pose proof Hx as (lo & hi & H1 & H2 & H3). cbn in H1. injection H1 as <-.
  destruct (Rle_dec x b) as [L|L]; [exists 0%nat; cbn; split; [lia|lra]|]. destruct g as [|c g]; [cbn in H2; injection H2 as <-; lra|].
  destruct (IH Hs' ltac:(cbn; lia) x) as (i & Hi & K); [apply (in_grid_tail a); [auto|lra]|]. exists (S i). split; [cbn in *; lia|]. exact K.
Qed.
Lemma cell_grid g i x : StronglySorted Rlt g -> (S i < List.length g)%nat -> nth i g 0 <= x <= nth (S i) g 0 -> in_grid g x.
Proof.
  intros Hs Hi Hx. destruct g as [|a g]; [cbn in Hi; lia|]. assert (L : (List.length g < List.length (a :: g))%nat) by (cbn; lia).
  exists a, (nth (List.length g) (a :: g) 0). split; [reflexivity|]. split.
  - assert (E : (a :: g) <> nil) by discriminate. destruct (exists_last E) as (l & z & Ez). rewrite Ez. rewrite rev_app_distr. cbn [rev app hd_error]. f_equal.
    assert (Hl : List.length g = List.length l). { assert (Q : List.length (a :: g) = List.length (l ++ z :: nil)) by (rewrite Ez; reflexivity). rewrite app_length in Q. cbn in Q. lia. }
    rewrite Hl, app_nth2 by lia. replace (List.length l - List.length l)%nat with 0%nat by lia. reflexivity.
  - cbn in Hi. split.
    + apply Rle_trans with (nth i (a :: g) 0); [|apply Hx]. destruct i as [|i]; [cbn; lra|]. left. change a with (nth 0 (a :: g) 0) at 1. apply sorted_nth; [auto|lia|cbn; lia].
    + apply Rle_trans with (nth (S i) (a :: g) 0); [apply Hx|]. destruct (Nat.eq_dec (S i) (List.length g)) as [->|Ne]; [lra|]. left. apply sorted_nth; [auto|lia|cbn; lia].
Qed.
(* linear in the values *)
Lemma nth_map_seq (f : nat -> R) n i : (i < n)%nat -> nth i (map f (seq 0 n)) 0 = f i.
Proof. intros H. rewrite (nth_indep _ 0 (f 0%nat)) by (rewrite map_length, seq_length; lia). rewrite map_nth, seq_nth by lia. reflexivity. Qed.
Lemma lin_comb g (f h : nat -> R) a b x : (2 <= List.length g)%nat ->
  lin g (map (fun i => a * f i + b * h i) (seq 0 (List.length g))) x = a * lin g (map f (seq 0 (List.length g))) x + b * lin g (map h (seq 0 (List.length g))) x.
Proof.
  intros Hl. destruct (lin_cell g Hl x) as (i & Hi & K). rewrite !K by (rewrite map_length, seq_length; reflexivity).
  rewrite !nth_map_seq by lia. ring.
Qed.
Lemma lin_const g k x : (2 <= List.length g)%nat -> lin g (map (fun _ => k) (seq 0 (List.length g))) x = k.
Proof. intros Hl. destruct (lin_cell g Hl x) as (i & Hi & K). rewrite K by (rewrite map_length, seq_length; reflexivity). rewrite !nth_map_seq by lia. ring. Qed.
(* only the values on the grid matter *)
Definition on_grid (gs : list (list R)) (ix : list nat) : Prop := Forall2 (fun i g => (i < List.length g)%nat) ix gs.
Lemma interp_ext gs : forall t u xs, List.length xs = List.length gs -> (forall ix, on_grid gs ix -> t ix = u ix) -> interpN gs t xs = interpN gs u xs.
Proof.
  induction gs as [|g gs IH]; intros t u xs Hx H; [apply H; constructor|]. destruct xs as [|x xs]; [discriminate|]. cbn [interpN]. f_equal. apply map_ext_in. intros i Hi.
  apply in_seq in Hi. apply IH; [cbn in Hx; lia|]. intros ix Hix. apply H. constructor; [lia|exact Hix].
Qed.
Lemma interp_comb gs : Forall (fun g => (2 <= List.length g)%nat) gs -> forall t u a b xs, List.length xs = List.length gs ->
  interpN gs (fun ix => a * t ix + b * u ix) xs = a * interpN gs t xs + b * interpN gs u xs.
Proof.
  induction 1 as [|g gs Hg Hgs IH]; intros t u a b xs Hx; [destruct xs; reflexivity|]. destruct xs as [|x xs]; [discriminate|]. cbn [interpN]. rewrite <- lin_comb by auto. f_equal. apply map_ext. intros i.
  apply IH. cbn in Hx. lia.
Qed.
Lemma interp_const gs : Forall (fun g => (2 <= List.length g)%nat) gs -> forall k xs, interpN gs (fun _ => k) xs = k.
Proof. induction 1 as [|g gs Hg Hgs IH]; intros k xs; [destruct xs; reflexivity|]. destruct xs as [|x xs]; [reflexivity|]. cbn [interpN]. rewrite (map_ext _ (fun _ => k)) by (intros; apply IH). apply lin_const. auto. Qed.
(* nodes *)
Lemma interp_node gs : Forall axis_ok gs -> forall t ix, on_grid gs ix -> interpN gs t (map (fun ig => nth (fst ig) (snd ig) 0) (combine ix gs)) = t ix.
Proof.
  induction 1 as [|g gs [Hs Hl] Hgs IH]; intros t ix Hix; inversion Hix as [|i ? ix' ? Hi Hix']; subst; [reflexivity|]. cbn [combine map interpN fst snd].
  rewrite (lin_node g Hs Hl _ i _ (t (i :: ix'))); [reflexivity|rewrite map_length, seq_length; reflexivity|apply nth_error_nth'; auto|].
  erewrite map_nth_error; [|rewrite nth_error_nth' with (d := 0%nat) by (rewrite seq_length; auto); rewrite seq_nth by auto; reflexivity]. f_equal. apply (IH (fun jx => t (i :: jx))). exact Hix'.
Qed.
(* a cell: one index per axis; its corners *)
Definition in_cells (gs : list (list R)) (xs : list R) (cs : list nat) : Prop :=
  Forall2 (fun gx c => (S c < List.length (fst gx))%nat /\ nth c (fst gx) 0 <= snd gx <= nth (S c) (fst gx) 0) (combine gs xs) cs /\ List.length xs = List.length gs.
Definition corner (cs ix : list nat) : Prop := Forall2 (fun c i => i = c \/ i = S c) cs ix.
Lemma interp_corners P : convex P -> forall gs, Forall axis_ok gs -> forall t xs cs, in_cells gs xs cs -> (forall ix, corner cs ix -> P (t ix)) -> P (interpN gs t xs).
Proof.
  intros HP. induction 1 as [|g gs [Hs Hl] Hgs IH]; intros t xs cs [Hc Hlen] H.
  - inversion Hc; subst. destruct xs; apply H; constructor.
  - destruct xs as [|x xs]; [discriminate|]. cbn [combine] in Hc. inversion Hc as [|? c ? cs' [Hc1 Hc2] Hcs]; subst. cbn [fst snd] in *. cbn [interpN].
    rewrite (lin_at g Hs Hl _ c) by (auto; rewrite map_length, seq_length; reflexivity). rewrite !nth_map_seq by lia.
    assert (I : in_cells gs xs cs') by (split; [exact Hcs|cbn in Hlen; lia]).
    apply HP; [apply frac_01; [apply sorted_nth; auto|auto]| |]; (apply (IH _ xs cs' I); intros ix Hix; apply H; constructor; auto).
Qed.
Definition inside (gs : list (list R)) (xs : list R) : Prop := Forall2 in_grid gs xs.
Lemma inside_cells gs xs : Forall axis_ok gs -> inside gs xs -> exists cs, in_cells gs xs cs.
Proof.
  intros H. revert xs. induction H as [|g gs [Hs Hl] Hgs IH]; intros xs Hi; inversion Hi as [|? x ? xs' Hx Hxs]; subst.
  - exists nil. split; [constructor|reflexivity].
  - destruct (IH xs' Hxs) as (cs & Hc & Hlen). destruct (in_cell g Hs Hl x Hx) as (i & Hi1 & Hi2). exists (i :: cs). split; [|cbn; lia]. cbn [combine]. constructor; [cbn [fst snd]; auto|exact Hc].
Qed.
Lemma corner_on gs xs cs ix : in_cells gs xs cs -> corner cs ix -> on_grid gs ix.
Proof.
  intros [Hc Hlen] Hix. revert xs cs ix Hc Hlen Hix. induction gs as [|g gs IH]; intros xs cs ix Hc Hlen Hix.
  - inversion Hc; subst. inversion Hix; subst. constructor.
  - destruct xs as [|x xs]; [discriminate|]. cbn [combine] in Hc. inversion Hc as [|? c ? cs' [Hc1 Hc2] Hcs]; subst. inversion Hix as [|? i ? ix' Hi Hix']; subst. cbn [fst] in Hc1.
    constructor; [destruct Hi; subst; lia|]. apply (IH xs cs' ix'); auto.
Qed.
(* ---------- the last axis ---------- *)
Definition up_last (gs : list (list R)) (n : nat) (t : list nat -> R) : Prop := forall ix j k, on_grid gs ix -> (j < k < n)%nat -> t (ix ++ j :: nil) < t (ix ++ k :: nil).
Lemma up_cons g gs n t i : up_last (g :: gs) n t -> (i < List.length g)%nat -> up_last gs n (fun ix => t (i :: ix)).
Proof. intros H Hi ix j k Hix Hjk. apply (H (i :: ix) j k); [constructor; auto|auto]. Qed.
Lemma lin_strict g : StronglySorted Rlt g -> (2 <= List.length g)%nat -> forall v, List.length v = List.length g -> (forall j k, (j < k < List.length g)%nat -> nth j v 0 < nth k v 0) ->
  forall x y, x < y -> lin g v x < lin g v y.
Proof.
  induction g as [|a g IH]; intros Hs Hl v Hv Hm x y Hxy; [cbn in Hl; lia|]. destruct g as [|b g]; [cbn in Hl; lia|].
  destruct v as [|va [|vb v]]; try (cbn in Hv; lia). destruct (sorted_inv2 _ _ _ Hs) as [Hab Hs'].
  assert (AB : va < vb) by (apply (Hm 0%nat 1%nat); cbn; lia).
  assert (S1 : forall s t, s < t -> va + (vb - va) * ((s - a) / (b - a)) < va + (vb - va) * ((t - a) / (b - a))).
  { intros s t Hst. apply Rplus_lt_compat_l. apply Rmult_lt_compat_l; [lra|]. apply Rmult_lt_compat_r; [apply Rinv_0_lt_compat; lra|lra]. }
  destruct g as [|c g]; [rewrite !lin_two; auto|]. rewrite !lin_step.
  assert (T : forall s t, s < t -> lin (b :: c :: g) (vb :: v) s < lin (b :: c :: g) (vb :: v) t).
  { apply IH; [auto|cbn; lia|cbn in *; lia|]. intros j k Hjk. apply (Hm (S j) (S k)). cbn in *. lia. }
  assert (N : lin (b :: c :: g) (vb :: v) b = vb) by (apply (lin_node (b :: c :: g) Hs' ltac:(cbn; lia) (vb :: v) 0%nat); [cbn in *; lia|reflexivity|reflexivity]).
  destruct (Rlt_dec x b) as [L|L], (Rlt_dec y b) as [L'|L']; [auto| |lra|auto].
  assert (X : va + (vb - va) * ((x - a) / (b - a)) < vb) by (replace vb with (va + (vb - va) * ((b - a) / (b - a))) at 2 by (field; lra); auto).
  destruct (Req_dec y b) as [->|Ne]; [rewrite N; auto|]. apply Rlt_trans with vb; [auto|]. rewrite <- N at 1. apply T. lra.
Qed.
Lemma lin_far g : StronglySorted Rlt g -> (2 <= List.length g)%nat -> forall v, List.length v = List.length g -> (forall j k, (j < k < List.length g)%nat -> nth j v 0 < nth k v 0) ->
  forall z, (exists x0, forall x, x0 <= x -> z < lin g v x) /\ (exists x0, forall x, x <= x0 -> lin g v x < z).
Proof.
  intros Hs Hl v Hv Hm z. pose proof (lin_strict g Hs Hl v Hv Hm) as Mono.
  assert (Up : exists x, z < lin g v x).
  { clear Mono. revert v Hv Hm. induction g as [|a g IH]; intros v Hv Hm; [cbn in Hl; lia|]. destruct g as [|b g]; [cbn in Hl; lia|].
    destruct v as [|va [|vb v]]; try (cbn in Hv; lia). destruct (sorted_inv2 _ _ _ Hs) as [Hab Hs']. assert (AB : va < vb) by (apply (Hm 0%nat 1%nat); cbn; lia).
    destruct g as [|c g].
    - exists (a + (z - va + 1) / (vb - va) * (b - a)). rewrite lin_two. replace (va + _) with (z + 1) by (field; split; lra). lra.
    - assert (Hm' : forall j k, (j < k < List.length (b :: c :: g))%nat -> nth j (vb :: v) 0 < nth k (vb :: v) 0) by (intros j k Hjk; apply (Hm (S j) (S k)); cbn in *; lia).
      destruct (IH Hs' ltac:(cbn; lia) (vb :: v) ltac:(cbn in *; lia) Hm') as (x & Hx). exists (Rmax x b). rewrite lin_step.
      destruct (Rlt_dec (Rmax x b) b) as [L|L]; [exfalso; pose proof (Rmax_r x b); lra|]. destruct (Req_dec (Rmax x b) x) as [E|E]; [rewrite E; exact Hx|].
      apply Rlt_trans with (lin (b :: c :: g) (vb :: v) x); [exact Hx|]. apply lin_strict; [auto|cbn; lia|cbn in *; lia|exact Hm'|]. pose proof (Rmax_l x b). lra. }
  assert (Dn : exists x, lin g v x < z).
  { destruct g as [|a [|b g]]; try (cbn in Hl; lia). destruct v as [|va [|vb v]]; try (cbn in Hv; lia). destruct (sorted_inv2 _ _ _ Hs) as [Hab _]. assert (AB : va < vb) by (apply (Hm 0%nat 1%nat); cbn; lia).
    set (x := Rmin (a - 1) (a + (z - va - 1) / (vb - va) * (b - a))). exists x.
    assert (E : lin (a :: b :: g) (va :: vb :: v) x = va + (vb - va) * ((x - a) / (b - a))).
    { destruct g as [|c g]; [reflexivity|]. rewrite lin_step. destruct (Rlt_dec x b) as [L|L]; [reflexivity|]. exfalso. apply L. unfold x. pose proof (Rmin_l (a - 1) (a + (z - va - 1) / (vb - va) * (b - a))). lra. }
    rewrite E. apply Rle_lt_trans with (va + (vb - va) * ((a + (z - va - 1) / (vb - va) * (b - a) - a) / (b - a))).
    - apply Rplus_le_compat_l. apply Rmult_le_compat_l; [lra|]. apply Rmult_le_compat_r; [left; apply Rinv_0_lt_compat; lra|]. pose proof (Rmin_r (a - 1) (a + (z - va - 1) / (vb - va) * (b - a))). fold x in H. lra.
    - replace (va + _) with (z - 1) by (field; split; lra). lra. }
  split.
  - destruct Up as (x & Hx). exists x. intros y Hy. destruct Hy as [Hy| <-]; [|auto]. apply Rlt_trans with (lin g v x); auto.
  - destruct Dn as (x & Hx). exists x. intros y Hy. destruct Hy as [Hy| ->]; [|auto]. apply Rlt_trans with (lin g v x); auto.
Qed.
Lemma conv_lt s t a b c d : 0 <= t <= 1 -> s = 1 - t -> a < c -> b < d -> s * a + t * b < s * c + t * d.
Proof. intros Ht -> H1 H2. destruct (Rle_lt_or_eq_dec 0 t (proj1 Ht)) as [L|<-]; [|lra]. assert (t * b < t * d) by (apply Rmult_lt_compat_l; auto). assert ((1 - t) * a <= (1 - t) * c) by (apply Rmult_le_compat_l; lra). lra. Qed.
Lemma chord a b t : a + (b - a) * t = (1 - t) * a + t * b. Proof. ring. Qed.
Lemma len_app {A B} (l : list A) (m : list B) a b : List.length l = List.length m -> List.length (l ++ a :: nil) = List.length (m ++ b :: nil).
Proof. intros H. rewrite !app_length. cbn. lia. Qed.
Lemma interp_cell g gs x : axis_ok g -> in_grid g x -> exists i s, (S i < List.length g)%nat /\ 0 <= s <= 1 /\
  forall t xs, interpN (g :: gs) t (x :: xs) = (1 - s) * interpN gs (fun ix => t (i :: ix)) xs + s * interpN gs (fun ix => t (S i :: ix)) xs.
Proof.
  intros [Hs Hl] Hx. destruct (in_cell g Hs Hl x Hx) as (i & Hi1 & Hi2). exists i, ((x - nth i g 0) / (nth (S i) g 0 - nth i g 0)). split; [auto|]. split; [apply frac_01; [apply sorted_nth; auto|auto]|].
  intros t' xs'. cbn [interpN]. rewrite (lin_at g Hs Hl _ i) by (auto; rewrite map_length, seq_length; reflexivity). rewrite !nth_map_seq by lia. apply chord.
Qed.
Lemma interp_strict gs gT : Forall axis_ok gs -> axis_ok gT -> forall t xs, inside gs xs -> up_last gs (List.length gT) t ->
  forall x y, x < y -> interpN (gs ++ gT :: nil) t (xs ++ x :: nil) < interpN (gs ++ gT :: nil) t (xs ++ y :: nil).
Proof.
  intros H HT. induction H as [|g gs Hg Hgs IH]; intros t xs Hi Hu x y Hxy; inversion Hi as [|? z ? xs' Hz Hxs]; subst.
  - cbn [app interpN]. apply lin_strict; [apply HT|apply HT|rewrite map_length, seq_length; reflexivity| |auto]. intros j k Hjk. rewrite !nth_map_seq by lia. apply (Hu nil); [constructor|auto].
  - cbn [app]. destruct (interp_cell g (gs ++ gT :: nil) z Hg Hz) as (i & s & Hi1 & Hs & E). rewrite !E.
    apply conv_lt; [auto|reflexivity| |]; (apply IH; [auto| |auto]); apply (up_cons g); auto; lia.
Qed.
Lemma interp_far gs gT : Forall axis_ok gs -> axis_ok gT -> forall t xs, inside gs xs -> up_last gs (List.length gT) t ->
  forall z, (exists x0, forall x, x0 <= x -> z < interpN (gs ++ gT :: nil) t (xs ++ x :: nil)) /\ (exists x0, forall x, x <= x0 -> interpN (gs ++ gT :: nil) t (xs ++ x :: nil) < z).
Proof.
  intros H HT. induction H as [|g gs Hg Hgs IH]; intros t xs Hi Hu z; inversion Hi as [|? q ? xs' Hz Hxs]; subst.
  - cbn [app interpN]. apply lin_far; [apply HT|apply HT|rewrite map_length, seq_length; reflexivity|]. intros j k Hjk. rewrite !nth_map_seq by lia. apply (Hu nil); [constructor|auto].
  - cbn [app]. destruct (interp_cell g (gs ++ gT :: nil) q Hg Hz) as (i & s & Hi1 & Hs & E).
    destruct (IH (fun ix => t (i :: ix)) xs' Hxs ltac:(apply (up_cons g); auto; lia) z) as [[u1 U1] [d1 D1]].
    destruct (IH (fun ix => t (S i :: ix)) xs' Hxs ltac:(apply (up_cons g); auto; lia) z) as [[u2 U2] [d2 D2]]. split.
    + exists (Rmax u1 u2). intros x Hx. rewrite E. pose proof (Rmax_l u1 u2). pose proof (Rmax_r u1 u2). replace z with ((1 - s) * z + s * z) by ring. apply conv_lt; [auto|reflexivity|apply U1; lra|apply U2; lra].
    + exists (Rmin d1 d2). intros x Hx. rewrite E. pose proof (Rmin_l d1 d2). pose proof (Rmin_r d1 d2). replace z with ((1 - s) * z + s * z) by ring. apply conv_lt; [auto|reflexivity|apply D1; lra|apply D2; lra].
Qed.
(* ---------- continuity ---------- *)
Lemma paste (f h x : R -> R) b s0 : continuous f s0 -> continuous h s0 -> continuous x s0 -> (x s0 = b -> f s0 = h s0) -> continuous (fun s => if Rlt_dec (x s) b then f s else h s) s0.
Proof.
  intros Hf Hh Hx He. destruct (Rtotal_order (x s0) b) as [L|[E|G]].
  - apply continuous_ext_loc with f; [|auto]. assert (K : locally (x s0) (fun y => y < b)) by (apply (open_lt b (x s0)); auto). apply Hx in K. unfold filtermap in K. revert K. apply filter_imp. intros s Hs. destruct (Rlt_dec (x s) b); [reflexivity|contradiction].
  - intros Q HQ. destruct (Rlt_dec (x s0) b) as [L|L]; [lra|]. specialize (He E). assert (K1 : locally s0 (fun s => Q (f s))) by (apply Hf; rewrite He; exact HQ). assert (K2 : locally s0 (fun s => Q (h s))) by (apply Hh; exact HQ).
    unfold filtermap. generalize (filter_and _ _ K1 K2). apply filter_imp. intros s [Q1 Q2]. destruct (Rlt_dec (x s) b); auto.
  - apply continuous_ext_loc with h; [|auto]. assert (K : locally (x s0) (fun y => b < y)) by (apply (open_gt b (x s0)); auto). apply Hx in K. unfold filtermap in K. revert K. apply filter_imp. intros s Hs. destruct (Rlt_dec (x s) b); [lra|reflexivity].
Qed.
Lemma cont_chord (va vb x : R -> R) a b s0 : continuous va s0 -> continuous vb s0 -> continuous x s0 -> continuous (fun s => va s + (vb s - va s) * ((x s - a) / (b - a))) s0.
Proof.
  intros H1 H2 H3. apply (continuous_plus (V := R_NormedModule)); [auto|]. apply (continuous_mult (K := R_AbsRing)); [apply (continuous_minus (V := R_NormedModule)); auto|].
  unfold Rdiv. apply (continuous_mult (K := R_AbsRing)); [apply (continuous_minus (V := R_NormedModule)); [auto|apply continuous_const]|apply continuous_const].
Qed.
Lemma lin_cont g : StronglySorted Rlt g -> (2 <= List.length g)%nat -> forall (v : nat -> R -> R) (x : R -> R) k s0, (forall i, continuous (v i) s0) -> continuous x s0 ->
  continuous (fun s => lin g (map (fun i => v i s) (seq k (List.length g))) (x s)) s0.
Proof.
  induction g as [|a g IH]; intros Hs Hl v x k s0 Hv Hx; [cbn in Hl; lia|]. destruct g as [|b g]; [cbn in Hl; lia|]. destruct (sorted_inv2 _ _ _ Hs) as [Hab Hs']. destruct g as [|c g].
  - apply (cont_chord (v k) (v (S k)) x a b); auto.
  - apply (paste (fun s => v k s + (v (S k) s - v k s) * ((x s - a) / (b - a))) (fun s => lin (b :: c :: g) (map (fun i => v i s) (seq (S k) (List.length (b :: c :: g)))) (x s)) x b s0);
      [apply cont_chord; auto|apply (IH Hs' ltac:(cbn; lia)); auto|auto|].
    intros E. rewrite E. rewrite (lin_node (b :: c :: g) Hs' ltac:(cbn; lia) _ 0%nat b (v (S k) s0)); [field; lra|rewrite map_length, seq_length; reflexivity|reflexivity|reflexivity].
Qed.
Lemma interp_cont gs : Forall axis_ok gs -> forall t (xs : list (R -> R)) s0, Forall (fun x => continuous x s0) xs -> continuous (fun s => interpN gs t (map (fun x => x s) xs)) s0.
Proof.
  induction 1 as [|g gs [Hs Hl] Hgs IH]; intros t xs s0 Hx; [destruct xs; apply continuous_const|]. destruct Hx as [|x xs Hx Hxs]; [apply continuous_const|].
  cbn [map interpN]. apply (lin_cont g Hs Hl (fun i s => interpN gs (fun ix => t (i :: ix)) (map (fun x => x s) xs)) x 0%nat s0); auto.
Qed.
