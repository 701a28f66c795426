(* Claim C69: the gas properties of the tabular method. *)
From Coq Require Import Lia Sorting.Sorted.
From Verif Require Import Lib_R Lib_Loop Spec_Wire Model_Thermo Proofs_Wire Prop_Static Prop_Thermo Model_Maps Model_Tab Proofs_Species Prop_Data Proofs_Tab.
From Verif Require Import Model_Cycle Prop_Cycle Model_Examples Data_Examples Prop_Examples Prop_Examples3.
From Coquelicot Require Import Rbar Hierarchy Continuity.
Notation lin := Model_Maps.lin (only parsing).
Open Scope string_scope. Open Scope list_scope. Open Scope R_scope.

(* the axes of a table: ascending grids of at least two points (OpenMDAO refuses others) *)
Definition table_ok (sp : tab_spec) (keys : list string) : Prop := forall a, In a (keys ++ "P" :: "T" :: nil) -> StronglySorted Rlt (tb_grid sp a) /\ (2 <= List.length (tb_grid sp a))%nat.
(* entry i of the composition vector belongs to the i-th key in sorted order *)
Definition comp_grid (sp : tab_spec) (keys : list string) (i : nat) : list R := tb_grid sp (nth i (sorted keys) "").
Definition in_range (sp : tab_spec) (keys : list string) (P : R) (c : nat -> R) : Prop :=
  (forall i, (i < List.length keys)%nat -> in_grid (comp_grid sp keys i) (c i)) /\ in_grid (tb_grid sp "P") P.
(* indices into the table: one per composition parameter, then pressure, then temperature *)
Definition index_ok (sp : tab_spec) (keys : list string) (ix : list nat) (j k : nat) : Prop :=
  List.length ix = List.length keys /\ (forall i, (i < List.length keys)%nat -> (nth i ix 0 < List.length (comp_grid sp keys i))%nat) /\ (j < List.length (tb_grid sp "P"))%nat /\ (k < List.length (tb_grid sp "T"))%nat.
Definition entry (sp : tab_spec) (x : string) (ix : list nat) (j k : nat) : R := tb_val sp x (ix ++ j :: k :: nil).

(* ---------- bridges ---------- *)
Lemma app_same_len {A} (l1 : list A) : forall m1 l2 m2, l1 ++ l2 = m1 ++ m2 -> List.length l1 = List.length m1 -> l1 = m1 /\ l2 = m2.
Proof. induction l1 as [|a l1 IH]; intros [|b m1] l2 m2 E L; try discriminate; [auto|]. cbn in E, L. injection E as <- E. destruct (IH m1 l2 m2 E ltac:(lia)) as [-> ->]. auto. Qed.
Lemma f2_len {A B} (Q : A -> B -> Prop) l m : Forall2 Q l m -> List.length l = List.length m. Proof. induction 1; cbn; congruence. Qed.
Notation cgs sp keys := (map (tb_grid sp) (sorted keys)).
Lemma len_sorted keys : List.length (sorted keys) = List.length keys. Proof. symmetry. apply Permutation.Permutation_length, sorted_perm. Qed.
Lemma axes_split sp keys : map (tb_grid sp) (tab_axes keys) = (cgs sp keys ++ tb_grid sp "P" :: nil) ++ tb_grid sp "T" :: nil.
Proof. unfold tab_axes. rewrite map_app. cbn [map]. rewrite <- app_assoc. reflexivity. Qed.
Lemma point_split keys T P c : tab_point keys T P c = (map c (seq 0 (List.length keys)) ++ P :: nil) ++ T :: nil.
Proof. unfold tab_point. rewrite <- app_assoc. reflexivity. Qed.
Lemma table_axes sp keys : table_ok sp keys -> Forall axis_ok (cgs sp keys ++ tb_grid sp "P" :: nil) /\ axis_ok (tb_grid sp "T").
Proof.
  intros H. split; [|apply H; apply in_or_app; right; cbn; auto]. apply Forall_forall. intros g Hg. apply in_app_or in Hg as [Hg|[<-|[]]]; [|apply H; apply in_or_app; right; cbn; auto].
  apply in_map_iff in Hg as (a & <- & Ha). apply H. apply in_or_app. left. apply in_sorted. exact Ha.
Qed.
Lemma table_all sp keys : table_ok sp keys -> Forall axis_ok (map (tb_grid sp) (tab_axes keys)).
Proof. intros H. rewrite axes_split. destruct (table_axes _ _ H). apply Forall_app. split; [auto|]. constructor; [auto|constructor]. Qed.
Lemma table_two sp keys : table_ok sp keys -> Forall (fun g : list R => (2 <= List.length g)%nat) (map (tb_grid sp) (tab_axes keys)).
Proof. intros H. eapply Forall_impl; [|apply table_all; exact H]. intros g Hg. apply Hg. Qed.
Lemma point_len sp keys T P c : List.length (tab_point keys T P c) = List.length (map (tb_grid sp) (tab_axes keys)).
Proof. unfold tab_point, tab_axes. rewrite !map_length, !app_length, map_length, seq_length, len_sorted. reflexivity. Qed.
Lemma forall2_nth {A B} (Q : A -> B -> Prop) l : forall m da db, List.length l = List.length m -> (forall i, (i < List.length l)%nat -> Q (nth i l da) (nth i m db)) -> Forall2 Q l m.
Proof.
  induction l as [|a l IH]; intros [|b m] da db Hl H; try discriminate; constructor; [apply (H 0%nat); cbn; lia|]. apply (IH m da db); [cbn in Hl; lia|]. intros i Hi. apply (H (S i)). cbn. lia.
Qed.
Lemma forall2_nth_inv {A B} (Q : A -> B -> Prop) l m da db : Forall2 Q l m -> forall i, (i < List.length l)%nat -> Q (nth i l da) (nth i m db).
Proof. induction 1 as [|a b l m H F IH]; intros i Hi; [cbn in Hi; lia|]. destruct i as [|i]; [exact H|]. apply IH. cbn in Hi. lia. Qed.
Lemma cgs_nth sp keys i : (i < List.length keys)%nat -> nth i (cgs sp keys) nil = comp_grid sp keys i.
Proof. intros Hi. rewrite (nth_indep _ nil (tb_grid sp "")) by (rewrite map_length, len_sorted; lia). rewrite map_nth. reflexivity. Qed.
Lemma range_inside sp keys P c : in_range sp keys P c -> inside (cgs sp keys ++ tb_grid sp "P" :: nil) (map c (seq 0 (List.length keys)) ++ P :: nil).
Proof.
  intros [H1 H2]. apply Forall2_app; [|constructor; [exact H2|constructor]]. apply (forall2_nth _ _ _ nil 0); [rewrite !map_length, seq_length; apply len_sorted|].
  rewrite map_length, len_sorted. intros i Hi. rewrite cgs_nth, nth_map_seq by auto. apply H1. auto.
Qed.
Lemma index_grid sp keys ix j k : index_ok sp keys ix j k <-> on_grid (map (tb_grid sp) (tab_axes keys)) (ix ++ j :: k :: nil).
Proof.
  rewrite axes_split, <- app_assoc. cbn [app]. split.
  - intros (L & H1 & H2 & H3). apply Forall2_app; [|constructor; [auto|constructor; [auto|constructor]]]. apply (forall2_nth _ _ _ 0%nat nil); [rewrite map_length, len_sorted; auto|]. rewrite L. intros i Hi. rewrite cgs_nth by auto. apply H1. auto.
  - intros H. assert (L : List.length ix = List.length keys). { apply f2_len in H. rewrite !app_length, map_length, len_sorted in H. cbn in H. lia. }
    apply Forall2_app_inv_l in H as (l1 & l2 & H1 & H2 & E). assert (L1 := f2_len _ _ _ H1). assert (l1 = cgs sp keys /\ l2 = tb_grid sp "P" :: tb_grid sp "T" :: nil) as [-> ->].
    { apply app_same_len; [symmetry; exact E|]. rewrite map_length, len_sorted. lia. }
    inversion H2 as [|? ? ? ? Hj H3]; subst. inversion H3; subst. repeat split; auto. intros i Hi. rewrite <- cgs_nth by auto. apply (forall2_nth_inv _ _ _ 0%nat nil H1). lia.
Qed.
Lemma ix_split sp keys ix : on_grid (map (tb_grid sp) (tab_axes keys)) ix -> exists i0 j k, ix = i0 ++ j :: k :: nil.
Proof.
  intros H. apply f2_len in H. unfold tab_axes in H. rewrite map_length, app_length in H. cbn in H. exists (firstn (List.length (sorted keys)) ix).
  assert (L : List.length (skipn (List.length (sorted keys)) ix) = 2%nat) by (rewrite skipn_length; lia). destruct (skipn (List.length (sorted keys)) ix) as [|j [|k [|]]] eqn:E; try discriminate. exists j, k. rewrite <- E. symmetry. apply firstn_skipn.
Qed.

(* ---------- the theorems ---------- *)
(* the properties are defined for every temperature, pressure and composition, and determined by them *)
Theorem C69_function sp keys T P c : (exists p, tab_tp sp keys T P c p) /\ forall p q, tab_tp sp keys T P c p -> tab_tp sp keys T P c q -> forall x, In x prop_names -> p x = q x.
Proof. split; [exists (fun x => interpN (map (tb_grid sp) (tab_axes keys)) (tb_val sp x) (tab_point keys T P c)); intros x _; reflexivity|]. intros p q Hp Hq x Hx. rewrite Hp, Hq by exact Hx. reflexivity. Qed.
(* at a point of the grid the table's entry is returned *)
Theorem C69_nodes sp keys ix j k T P c p x : table_ok sp keys -> index_ok sp keys ix j k -> (forall i, (i < List.length keys)%nat -> c i = nth (nth i ix 0%nat) (comp_grid sp keys i) 0) ->
  P = nth j (tb_grid sp "P") 0 -> T = nth k (tb_grid sp "T") 0 -> tab_tp sp keys T P c p -> In x prop_names -> p x = entry sp x ix j k.
Proof.
  intros Ht Hi Hc -> -> Hp Hx. rewrite (Hp x Hx). assert (Hg := proj1 (index_grid _ _ _ _ _) Hi). destruct Hi as (L & H1 & H2 & H3).
  unfold entry. rewrite <- (interp_node _ (table_all _ _ Ht) (tb_val sp x) _ Hg). f_equal. unfold tab_point. rewrite axes_split, <- app_assoc. cbn [app].
  assert (Q : forall (l : list nat) (m : list (list R)) l2 m2, List.length l = List.length m -> combine (l ++ l2) (m ++ m2) = combine l m ++ combine l2 m2).
  { induction l as [|a l IH]; intros [|b m] l2 m2 E; try discriminate; [reflexivity|]. cbn. f_equal. apply IH. cbn in E. lia. }
  rewrite Q by (rewrite map_length, len_sorted; auto). rewrite map_app. cbn [combine map fst snd]. f_equal.
  apply (nth_ext _ _ 0 0); [rewrite !map_length, combine_length, seq_length, map_length, len_sorted; lia|]. rewrite map_length, seq_length. intros i Hi. rewrite nth_map_seq, Hc by auto.
  set (f := fun ig : nat * list R => nth (fst ig) (snd ig) 0). rewrite (nth_indep (map f _) 0 (f (0%nat, nil))) by (rewrite map_length, combine_length, map_length, len_sorted; lia).
  rewrite map_nth, combine_nth by (rewrite map_length, len_sorted; auto). unfold f. cbn [fst snd]. rewrite cgs_nth by auto. reflexivity.
Qed.
(* between the points of the grid a property lies in every interval that holds the entries at the corners of a cell around the point *)
Definition cell_of (sp : tab_spec) (keys : list string) (T P : R) (c : nat -> R) (ix : list nat) (j k : nat) : Prop :=
  let on g i y := nth i g 0 <= y <= nth (S i) g 0 in
  List.length ix = List.length keys /\ (forall i, (i < List.length keys)%nat -> on (comp_grid sp keys i) (nth i ix 0%nat) (c i)) /\ on (tb_grid sp "P") j P /\ on (tb_grid sp "T") k T.
Definition corner_of (ix jx : list nat) : Prop := List.length jx = List.length ix /\ forall i, (i < List.length ix)%nat -> nth i jx 0%nat = nth i ix 0%nat \/ nth i jx 0%nat = S (nth i ix 0%nat).
Theorem C69_between sp keys ix j k T P c p x lo hi : table_ok sp keys -> index_ok sp keys (map S ix) (S j) (S k) -> cell_of sp keys T P c ix j k -> tab_tp sp keys T P c p -> In x prop_names ->
  (forall jx j' k', corner_of ix jx -> j' = j \/ j' = S j -> k' = k \/ k' = S k -> lo <= entry sp x jx j' k' <= hi) -> lo <= p x <= hi.
Proof.
  intros Ht (L & I1 & I2 & I3) (L' & C1 & C2 & C3) Hp Hx H. rewrite (Hp x Hx).
  apply (interp_corners (fun y => lo <= y <= hi)) with (cs := ix ++ j :: k :: nil); [intros a b t Ht' Ha Hb; nra|apply table_all; auto| |].
  - split; [|apply point_len]. rewrite axes_split, <- app_assoc. cbn [app]. unfold tab_point.
    assert (Q : forall (l : list (list R)) (m : list R) l2 m2, List.length l = List.length m -> combine (l ++ l2) (m ++ m2) = combine l m ++ combine l2 m2).
    { induction l as [|a l IH]; intros [|b m] l2 m2 E; try discriminate; [reflexivity|]. cbn. f_equal. apply IH. cbn in E. lia. }
    rewrite Q by (rewrite !map_length, seq_length; apply len_sorted). apply Forall2_app; [|cbn [combine]; constructor; [cbn [fst snd]; auto|constructor; [cbn [fst snd]; auto|constructor]]].
    apply (forall2_nth _ _ _ (nil, 0) 0%nat); [rewrite combine_length, !map_length, seq_length, len_sorted; lia|]. rewrite combine_length, !map_length, seq_length, len_sorted, Nat.min_id. intros i Hi.
    rewrite combine_nth by (rewrite !map_length, seq_length; apply len_sorted). cbn [fst snd]. rewrite cgs_nth, nth_map_seq by auto. split; [|apply C1; auto].
    specialize (I1 i Hi). rewrite (nth_indep _ 0%nat 1%nat) in I1 by (rewrite map_length; lia). change 1%nat with (S 0) in I1 at 1. rewrite map_nth in I1. exact I1.
  - intros jx Hc. apply Forall2_app_inv_l in Hc as (a & b & Ha & Hb & ->). inversion Hb as [|? j' ? b' Hj Hb']; subst. inversion Hb' as [|? k' ? b'' Hk Hb'']; subst. inversion Hb''; subst. apply H; [|auto|auto].
    split; [symmetry; apply (f2_len _ _ _ Ha)|]. intros i Hi. apply (forall2_nth_inv _ _ _ 0%nat 0%nat Ha). auto.
Qed.
(* inside the table a property stays within any bounds that all its entries respect, e.g. positive density *)
Theorem C69_bounds sp keys T P c p x (ok : R -> Prop) : table_ok sp keys -> in_range sp keys P c -> in_grid (tb_grid sp "T") T -> tab_tp sp keys T P c p -> In x prop_names ->
  (forall a b t, 0 <= t <= 1 -> ok a -> ok b -> ok (a + (b - a) * t)) -> (forall ix j k, index_ok sp keys ix j k -> ok (entry sp x ix j k)) -> ok (p x).
Proof.
  intros Ht Hr HT Hp Hx Hc H. rewrite (Hp x Hx).
  assert (I : inside (map (tb_grid sp) (tab_axes keys)) (tab_point keys T P c)) by (rewrite axes_split, point_split; apply Forall2_app; [apply range_inside; auto|constructor; [auto|constructor]]).
  destruct (inside_cells _ _ (table_all _ _ Ht) I) as (cs & Hcs). apply (interp_corners ok Hc _ (table_all _ _ Ht) _ _ cs Hcs). intros ix Hix.
  assert (O := corner_on _ _ _ _ Hcs Hix). destruct (ix_split _ _ _ O) as (i0 & j & k & ->). apply (H i0 j k). apply index_grid. exact O.
Qed.
(* a linear relation between properties that holds throughout the table, such as Cp - Cv = R, holds everywhere, beyond the table too *)
Theorem C69_linear sp keys T P c p x y z a b d k0 : table_ok sp keys -> tab_tp sp keys T P c p -> In x prop_names -> In y prop_names -> In z prop_names ->
  (forall ix j k, index_ok sp keys ix j k -> a * entry sp x ix j k + b * entry sp y ix j k + d * entry sp z ix j k = k0) -> a * p x + b * p y + d * p z = k0.
Proof.
  intros Ht Hp Hx Hy Hz H. rewrite (Hp x Hx), (Hp y Hy), (Hp z Hz). assert (T2 := table_two _ _ Ht). assert (PL := point_len sp keys T P c).
  set (gs := map (tb_grid sp) (tab_axes keys)) in *. set (xs := tab_point keys T P c) in *.
  replace (a * _ + b * _ + d * _) with (1 * (a * interpN gs (tb_val sp x) xs + b * interpN gs (tb_val sp y) xs) + d * interpN gs (tb_val sp z) xs) by ring.
  rewrite <- interp_comb, <- interp_comb by auto. rewrite <- (interp_const gs T2 k0 xs) at 1. apply interp_ext; [exact PL|]. intros ix Hix. destruct (ix_split _ _ _ Hix) as (i0 & j & k & ->).
  rewrite <- (H i0 j k) by (apply index_grid; exact Hix). unfold entry. ring.
Qed.
(* no jumps: along continuous changes of temperature, pressure and composition every property changes continuously *)
Theorem C69_continuous sp keys (T P : R -> R) (c : nat -> R -> R) (p : R -> string -> R) s0 x : table_ok sp keys -> (forall s, tab_tp sp keys (T s) (P s) (fun i => c i s) (p s)) ->
  continuous T s0 -> continuous P s0 -> (forall i, continuous (c i) s0) -> In x prop_names -> continuous (fun s => p s x) s0.
Proof.
  intros Ht Hp CT CP CC Hx. apply (continuous_ext (fun s => interpN (map (tb_grid sp) (tab_axes keys)) (tb_val sp x) (map (fun f : R -> R => f s) (map c (seq 0 (List.length keys)) ++ P :: T :: nil)))).
  { intros s. rewrite (Hp s x Hx). unfold tab_point. rewrite map_app, map_map. reflexivity. }
  apply interp_cont; [apply table_all; auto|]. apply Forall_app. split; [|constructor; [auto|constructor; [auto|constructor]]]. apply Forall_forall. intros f Hf. apply in_map_iff in Hf as (i & <- & _). apply CC.
Qed.

(* ---------- temperature from enthalpy or entropy ---------- *)
(* property x grows with temperature along every row of the table *)
Definition rises (sp : tab_spec) (keys : list string) (x : string) : Prop := forall ix j k k', index_ok sp keys ix j k -> index_ok sp keys ix j k' -> (k < k')%nat -> entry sp x ix j k < entry sp x ix j k'.
Lemma rises_up sp keys x : rises sp keys x -> up_last (cgs sp keys ++ tb_grid sp "P" :: nil) (List.length (tb_grid sp "T")) (tb_val sp x).
Proof.
  intros H ix k k' Hix Hk. apply Forall2_app_inv_r in Hix as (a & b & Ha & Hb & ->). inversion Hb as [|j ? b' ? Hj Hb']; subst. inversion Hb'; subst. rewrite <- !app_assoc. cbn [app].
  apply (H a j k k'); [| |lia]; (apply index_grid; rewrite axes_split, <- app_assoc; cbn [app]; apply Forall2_app; [exact Ha|]; constructor; [auto|constructor; [lia|constructor]]).
Qed.
(* for every pressure and composition of the table and every value of such a property there is exactly one temperature *)
Theorem C69_temperature sp keys P c x y : table_ok sp keys -> in_range sp keys P c -> In x prop_names -> rises sp keys x ->
  exists T, (forall p, tab_tp sp keys T P c p -> p x = y) /\ forall T' p', tab_tp sp keys T' P c p' -> p' x = y -> T' = T.
Proof.
  intros Ht Hr Hx Hu. destruct (table_axes _ _ Ht) as [A1 A2]. assert (I := range_inside _ _ _ _ Hr). assert (U := rises_up _ _ _ Hu).
  set (f := fun T => interpN ((cgs sp keys ++ tb_grid sp "P" :: nil) ++ tb_grid sp "T" :: nil) (tb_val sp x) ((map c (seq 0 (List.length keys)) ++ P :: nil) ++ T :: nil)).
  assert (V : forall T p, tab_tp sp keys T P c p -> p x = f T) by (intros T p Hp; rewrite (Hp x Hx), axes_split, point_split; reflexivity).
  assert (M : forall s t, s < t -> f s < f t) by (intros s t Hst; apply interp_strict; auto).
  assert (C : forall s, continuous f s).
  { intros s. apply (continuous_ext (fun s => interpN (map (tb_grid sp) (tab_axes keys)) (tb_val sp x) (map (fun h : R -> R => h s) (map (fun i _ => c i) (seq 0 (List.length keys)) ++ (fun _ => P) :: (fun s => s) :: nil)))).
    { intros t. unfold f. rewrite axes_split, map_app, map_map, <- !app_assoc. reflexivity. }
    apply interp_cont; [apply table_all; auto|]. apply Forall_app. split; [|constructor; [apply continuous_const|constructor; [apply continuous_id|constructor]]]. apply Forall_forall. intros h Hh. apply in_map_iff in Hh as (i & <- & _). apply continuous_const. }
  destruct (interp_far _ _ A1 A2 _ _ I U y) as [[x1 Hx1] [x0 Hx0]]. set (lo := Rmin x0 x1). set (hi := Rmax x0 x1 + 1).
  assert (Lo : f lo < y) by (apply Hx0; apply Rmin_l). assert (Hi : y < f hi) by (apply Hx1; unfold hi; pose proof (Rmax_r x0 x1); lra).
  assert (LH : lo < hi) by (unfold lo, hi; pose proof (Rmin_l x0 x1); pose proof (Rmax_l x0 x1); lra).
  destruct (IVT (fun t => f t - y) lo hi) as (T & _ & HT); [intros t; apply continuity_pt_minus; [apply continuity_pt_filterlim, C|apply continuity_pt_const; intros u v; reflexivity]|exact LH|lra|lra|].
  assert (E : f T = y) by lra. exists T. split; [intros p Hp; rewrite (V T p Hp); exact E|]. intros T' p' Hp' Hy. rewrite (V T' p' Hp') in Hy.
  destruct (Rtotal_order T' T) as [L|[Q|L]]; [apply M in L; lra|exact Q|apply M in L; lra].
Qed.
(* the temperature lies in the table when the value does *)
Theorem C69_temperature_range sp keys P c x T p T0 T1 p0 p1 : table_ok sp keys -> in_range sp keys P c -> In x prop_names -> rises sp keys x ->
  tab_tp sp keys T0 P c p0 -> tab_tp sp keys T1 P c p1 -> tab_tp sp keys T P c p -> (p0 x <= p x <= p1 x <-> T0 <= T <= T1).
Proof.
  intros Ht Hr Hx Hu H0 H1 H. destruct (table_axes _ _ Ht) as [A1 A2]. assert (I := range_inside _ _ _ _ Hr). assert (U := rises_up _ _ _ Hu).
  assert (M := interp_strict _ _ A1 A2 _ _ I U). rewrite (H x Hx), (H0 x Hx), (H1 x Hx), !axes_split, !point_split.
  split; intros [L1 L2]; split.
  - destruct (Rle_dec T0 T) as [|N]; [auto|]. assert (Q := M T T0 ltac:(lra)). lra.
  - destruct (Rle_dec T T1) as [|N]; [auto|]. assert (Q := M T1 T ltac:(lra)). lra.
  - destruct L1 as [L1| ->]; [left; apply M; auto|lra].
  - destruct L2 as [L2| ->]; [left; apply M; auto|lra].
Qed.
(* a converged station of the tabular method is determined by its enthalpy (entropy), pressure and composition *)
Definition agree (w w' : state) (fl fl' : string) : Prop := w (at_ fl "T") 0%nat = w' (at_ fl' "T") 0%nat /\ forall x, In x prop_names -> w (at_ fl x) 0%nat = w' (at_ fl' x) 0%nat.
Definition in_spec (sp : tab_spec) (keys : list string) (w : state) (comp fl : string) : Prop := in_range sp keys (w (at_ fl "P") 0%nat / ufac "Pa") (w comp).
Lemma same_gas sp keys c c' w w' fl fl' x : table_ok sp keys -> In x prop_names -> rises sp keys x -> station (tab_tp sp keys) TABULAR c w fl -> station (tab_tp sp keys) TABULAR c' w' fl' ->
  in_range sp keys (w (at_ fl "P") 0%nat / ufac "Pa") c -> w (at_ fl "P") 0%nat = w' (at_ fl' "P") 0%nat -> (forall i, (i < List.length keys)%nat -> c i = c' i) -> w (at_ fl x) 0%nat = w' (at_ fl' x) 0%nat -> agree w w' fl fl'.
Proof.
  intros Ht Hx Hu (p & Hp & Vp) (q & Hq & Vq) Hr HP Hc Hv. cbn [p_unit] in *. rewrite <- HP in Hq.
  assert (Hq' : tab_tp sp keys (w' (at_ fl' "T") 0%nat) (w (at_ fl "P") 0%nat / ufac "Pa") c q).
  { intros y Hy. rewrite (Hq y Hy). f_equal. unfold tab_point. f_equal. apply map_ext_in. intros i Hi. apply in_seq in Hi. symmetry. apply Hc. lia. }
  assert (E : p x = q x). { rewrite (Vp x Hx), (Vq x Hx) in Hv. apply (Rmult_eq_reg_r (ufac (prop_unit TABULAR x))); [exact Hv|apply ufac_n0]. }
  destruct (C69_temperature sp keys _ c x (q x) Ht Hr Hx Hu) as (T & _ & K). assert (T1 := K _ _ Hp E). assert (T2 := K _ _ Hq' eq_refl). split; [congruence|]. intros y Hy. rewrite (Vp y Hy), (Vq y Hy). f_equal.
  rewrite T1 in Hp. rewrite T2 in Hq'. apply (proj2 (C69_function sp keys T _ c) p q Hp Hq' y Hy).
Qed.
Theorem C69_station_hP sp keys w w' fl fl' : table_ok sp keys -> rises sp keys "h" -> solves (thermo (tab_tp sp keys) TABULAR total_hP fl) w -> solves (thermo (tab_tp sp keys) TABULAR total_hP fl') w' ->
  in_spec sp keys w "composition" fl -> w "h" 0%nat = w' "h" 0%nat -> w "P" 0%nat = w' "P" 0%nat -> (forall i, (i < List.length keys)%nat -> w "composition" i = w' "composition" i) -> agree w w' fl fl'.
Proof.
  intros Ht Hu S1 S2 Hr Hh HP Hc. destruct (C42_total_hP _ _ _ _ S1) as (A1 & A2 & A3 & A4). destruct (C42_total_hP _ _ _ _ S2) as (B1 & B2 & B3 & B4).
  apply (same_gas sp keys (w (at_ fl "composition")) (w' (at_ fl' "composition")) w w' fl fl' "h"); auto; [cbn; auto| | | |].
  - unfold in_spec in Hr. destruct Hr as [R1 R2]. split; [intros i Hi; rewrite (A4 i); apply R1; auto|exact R2].
  - rewrite (A3 0%nat), (B3 0%nat). exact HP.
  - intros i Hi. rewrite (A4 i), (B4 i). apply Hc. auto.
  - rewrite A2, B2. exact Hh.
Qed.
Theorem C69_station_SP sp keys w w' fl fl' : table_ok sp keys -> rises sp keys "S" -> solves (thermo (tab_tp sp keys) TABULAR total_SP fl) w -> solves (thermo (tab_tp sp keys) TABULAR total_SP fl') w' ->
  in_spec sp keys w "composition" fl -> w "S" 0%nat = w' "S" 0%nat -> w "P" 0%nat = w' "P" 0%nat -> (forall i, (i < List.length keys)%nat -> w "composition" i = w' "composition" i) -> agree w w' fl fl'.
Proof.
  intros Ht Hu S1 S2 Hr Hh HP Hc. destruct (C42_total_SP _ _ _ _ S1) as (A1 & A2 & A3 & A4). destruct (C42_total_SP _ _ _ _ S2) as (B1 & B2 & B3 & B4).
  apply (same_gas sp keys (w (at_ fl "composition")) (w' (at_ fl' "composition")) w w' fl fl' "S"); auto; [cbn; auto| | | |].
  - unfold in_spec in Hr. destruct Hr as [R1 R2]. split; [intros i Hi; rewrite (A4 i); apply R1; auto|exact R2].
  - rewrite (A3 0%nat), (B3 0%nat). exact HP.
  - intros i Hi. rewrite (A4 i), (B4 i). apply Hc. auto.
  - rewrite A2, B2. exact Hh.
Qed.
Theorem C69_station_Ps sp keys w w' fl fl' : table_ok sp keys -> rises sp keys "S" -> solves (thermo (tab_tp sp keys) TABULAR static_Ps fl) w -> solves (thermo (tab_tp sp keys) TABULAR static_Ps fl') w' ->
  in_spec sp keys w "composition" fl -> w "S" 0%nat = w' "S" 0%nat -> w "Ps" 0%nat = w' "Ps" 0%nat -> (forall i, (i < List.length keys)%nat -> w "composition" i = w' "composition" i) -> agree w w' fl fl'.
Proof.
  intros Ht Hu S1 S2 Hr Hh HP Hc. destruct (C42_static_Ps _ _ _ _ S1) as (A1 & A2 & A3 & _). destruct (C42_static_Ps _ _ _ _ S2) as (B1 & B2 & B3 & _).
  apply (same_gas sp keys (w "composition") (w' "composition") w w' fl fl' "S"); auto; [cbn; auto| |].
  - rewrite (A3 0%nat), (B3 0%nat). exact HP.
  - rewrite A2, B2. exact Hh.
Qed.
(* the energy balance of the shipped engines, C67_energy, needs nothing of the table *)
Theorem C69_energy sp keys g els w : In g engines -> Prop_Examples.at_point (tab_tp sp keys) (g_ex g) els w ->
  enth_flow w ("inlet", "Fl_O") + lsum (x_energy w) (x_els (g_ex g)) = lsum (enth_flow w) (g_exits g).
Proof. intros Hg H. apply (C67_energy (tab_tp sp keys) g els w); auto. intros T P c p q Hp Hq. apply (proj2 (C69_function sp keys T P c) p q Hp Hq). cbn. auto. Qed.

(* ---------- the equation of state between the points of the grid ---------- *)
(* a table of an ideal gas with gas constant R0 *)
Definition ideal_table (sp : tab_spec) (keys : list string) (R0 : R) : Prop := forall ix j k, index_ok sp keys ix j k ->
  entry sp "R" ix j k = R0 /\ entry sp "rho" ix j k = nth j (tb_grid sp "P") 0 / (R0 * nth k (tb_grid sp "T") 0).
Lemma drop_comp gs : forall gs2 t u xs ys, Forall (fun g : list R => (2 <= List.length g)%nat) gs -> List.length xs = List.length gs -> List.length ys = List.length gs2 ->
  (forall ix jx, on_grid gs ix -> on_grid gs2 jx -> t (ix ++ jx) = u jx) -> interpN (gs ++ gs2) t (xs ++ ys) = interpN gs2 u ys.
Proof.
  induction gs as [|g gs IH]; intros gs2 t u xs ys Hg Lx Ly H.
  - destruct xs; [|discriminate]. cbn [app]. apply interp_ext; [auto|]. intros jx Hj. apply (H nil jx); [constructor|auto].
  - destruct xs as [|x xs]; [discriminate|]. inversion Hg as [|? ? Hg1 Hg2]; subst. cbn [app interpN]. rewrite <- (lin_const g (interpN gs2 u ys) x Hg1). f_equal. apply map_ext_in. intros i Hi. apply in_seq in Hi.
    apply IH; [auto|cbn in Lx; lia|auto|]. intros ix jx Hix Hjx. apply (H (i :: ix) jx); [constructor; [lia|auto]|auto].
Qed.
Lemma lin_id g : StronglySorted Rlt g -> (2 <= List.length g)%nat -> forall x, lin g (map (fun i => nth i g 0) (seq 0 (List.length g))) x = x.
Proof. intros Hs Hl x. destruct (lin_cell g Hl x) as (i & Hi & K). rewrite K by (rewrite map_length, seq_length; reflexivity). rewrite !nth_map_seq by lia. assert (nth i g 0 < nth (S i) g 0) by (apply sorted_nth; auto). field. lra. Qed.
(* density and gas constant at T, P: exact at the temperatures of the grid, too large between them *)
Theorem C69_ideal_gas sp keys R0 T P c p k : table_ok sp keys -> 0 < R0 -> ideal_table sp keys R0 -> tab_tp sp keys T P c p ->
  (S k < List.length (tb_grid sp "T"))%nat -> let T1 := nth k (tb_grid sp "T") 0 in let T2 := nth (S k) (tb_grid sp "T") 0 in 0 < T1 -> T1 <= T <= T2 ->
  p "rho" * p "R" * T = P * (1 + (T - T1) * (T2 - T) / (T1 * T2)).
Proof.
  intros Ht HR Hi Hp Hk T1 T2 H1 HT. destruct (table_axes _ _ Ht) as [A1 [S2 L2]]. assert (AP : axis_ok (tb_grid sp "P")) by (apply Ht; apply in_or_app; right; cbn; auto). destruct AP as [SP LP].
  assert (T12 : T1 < T2) by (apply sorted_nth; auto).
  assert (A0 : Forall (fun g : list R => (2 <= List.length g)%nat) (cgs sp keys)). { apply Forall_app in A1 as [A1 _]. eapply Forall_impl; [|exact A1]. intros g Hg. apply Hg. }
  assert (IX : forall ix j k, on_grid (cgs sp keys) ix -> on_grid (tb_grid sp "P" :: tb_grid sp "T" :: nil) (j :: k :: nil) -> index_ok sp keys ix j k).
  { intros ix j k' X Y. apply index_grid. rewrite axes_split, <- app_assoc. apply Forall2_app; auto. }
  assert (LX : List.length (map c (seq 0 (List.length keys))) = List.length (cgs sp keys)) by (rewrite !map_length, seq_length; symmetry; apply len_sorted).
  assert (ER : p "R" = R0).
  { rewrite (Hp "R") by (cbn; tauto). rewrite <- (interp_const _ (table_two _ _ Ht) R0 (tab_point keys T P c)). apply interp_ext; [apply point_len|]. intros ix Hix. destruct (ix_split _ _ _ Hix) as (i0 & j & k' & ->). apply (Hi i0 j k'). apply index_grid. exact Hix. }
  assert (Eρ : p "rho" = P * ((T1 + T2 - T) / (R0 * (T1 * T2)))).
  { rewrite (Hp "rho") by (cbn; tauto). rewrite axes_split, <- app_assoc. unfold tab_point. cbn [app].
    rewrite (drop_comp (cgs sp keys) (tb_grid sp "P" :: tb_grid sp "T" :: nil) _ (fun jx => nth (nth 0 jx 0%nat) (tb_grid sp "P") 0 / (R0 * nth (nth 1 jx 0%nat) (tb_grid sp "T") 0))); [|auto|auto|reflexivity|].
    2: { intros ix jx Hix Hjx. inversion Hjx as [|j ? jx' ? Hj Hj']; subst. inversion Hj' as [|k' ? jx'' ? Hk' Hj'']; subst. inversion Hj''; subst. cbn [nth]. apply (Hi ix j k'). apply IX; auto. }
    cbn [interpN nth].
    rewrite (map_ext (fun i => lin (tb_grid sp "T") (map (fun i0 => nth i (tb_grid sp "P") 0 / (R0 * nth i0 (tb_grid sp "T") 0)) (seq 0 (Datatypes.length (tb_grid sp "T")))) T)
                     (fun i => (T1 + T2 - T) / (R0 * (T1 * T2)) * nth i (tb_grid sp "P") 0 + 0 * 0)).
    2: { intros i. rewrite (lin_at _ S2 L2 _ k) by (auto; rewrite map_length, seq_length; reflexivity). rewrite !nth_map_seq by lia. fold T1 T2. field. repeat split; lra. }
    rewrite (lin_comb (tb_grid sp "P") (fun i => nth i (tb_grid sp "P") 0) (fun _ => 0) ((T1 + T2 - T) / (R0 * (T1 * T2))) 0 P LP), (lin_id _ SP LP). ring. }
  rewrite ER, Eρ. field. repeat split; lra.
Qed.
(* the lookup extrapolates: in every table whose density falls with temperature, hot enough gas has negative density *)
Theorem C69_extrapolation_refuted sp keys P c : table_ok sp keys -> in_range sp keys P c ->
  (forall ix j k k', index_ok sp keys ix j k -> index_ok sp keys ix j k' -> (k < k')%nat -> entry sp "rho" ix j k' < entry sp "rho" ix j k) ->
  exists T0, forall T p, T0 <= T -> tab_tp sp keys T P c p -> p "rho" < 0.
Proof.
  intros Ht Hr H. destruct (table_axes _ _ Ht) as [A1 A2]. assert (I := range_inside _ _ _ _ Hr).
  set (sp' := mkTabSpec (tb_grid sp) (fun x ix => (-1) * tb_val sp "rho" ix + 0 * tb_val sp "rho" ix)).
  assert (U : up_last (cgs sp keys ++ tb_grid sp "P" :: nil) (List.length (tb_grid sp "T")) (tb_val sp' "rho")).
  { apply (rises_up sp' keys "rho"). intros ix j k k' X Y L. unfold entry, sp'. cbn [tb_val]. specialize (H ix j k k' X Y L). unfold entry in H. lra. }
  destruct (interp_far _ _ A1 A2 _ _ I U 0) as [[x1 Hx1] _]. exists x1. intros T p HT Hp. rewrite (Hp "rho") by (cbn; tauto). specialize (Hx1 T HT). unfold sp' in Hx1. cbn [tb_val] in Hx1.
  assert (E := interp_comb (map (tb_grid sp) (tab_axes keys)) (table_two _ _ Ht) (tb_val sp "rho") (tb_val sp "rho") (-1) 0 (tab_point keys T P c) (point_len sp keys T P c)).
  rewrite axes_split, point_split in *. rewrite E in Hx1. lra.
Qed.

(* ---------- a table that meets the hypotheses: one composition parameter, an ideal gas ---------- *)
Definition ex_grid (a : string) : list R := if String.eqb a "P" then 100000 :: 300000 :: 2000000 :: nil else if String.eqb a "T" then 300 :: 600 :: 1200 :: nil else 0 :: 4 / 100 :: nil.
Definition ex_tab : tab_spec := mkTabSpec ex_grid (fun x ix =>
  let j := nth 1 ix 0%nat in let k := nth 2 ix 0%nat in
  if String.eqb x "h" then 1000 * nth k (ex_grid "T") 0 else if String.eqb x "S" then 5000 + 100 * INR k - 10 * INR j else if String.eqb x "gamma" then 14 / 10 else if String.eqb x "Cp" then 1000
  else if String.eqb x "Cv" then 713 else if String.eqb x "rho" then nth j (ex_grid "P") 0 / (287 * nth k (ex_grid "T") 0) else 287).
Definition ex_far : nat -> R := fun _ => 1 / 100.
Lemma ex_ok : table_ok ex_tab ("FAR" :: nil).
Proof.
  assert (K : forall a b c : R, a < b -> b < c -> StronglySorted Rlt (a :: b :: c :: nil) /\ (2 <= List.length (a :: b :: c :: nil))%nat).
  { intros a b c H1 H2. split; [|cbn; lia]. repeat constructor; lra. }
  intros a Ha. cbn in Ha. destruct Ha as [<-|[<-|[<-|[]]]]; cbn [ex_tab tb_grid].
  - change (ex_grid "FAR") with (0 :: 4 / 100 :: nil). split; [repeat constructor; lra|cbn; lia].
  - change (ex_grid "P") with (100000 :: 300000 :: 2000000 :: nil). apply K; lra.
  - change (ex_grid "T") with (300 :: 600 :: 1200 :: nil). apply K; lra.
Qed.
Lemma ex_in : in_range ex_tab ("FAR" :: nil) 200000 ex_far.
Proof.
  split.
  - intros i Hi. cbn in Hi. assert (i = 0)%nat by lia. subst i. change (comp_grid ex_tab ("FAR" :: nil) 0) with (0 :: 4 / 100 :: nil). exists 0, (4 / 100). unfold ex_far. split; [reflexivity|]. split; [reflexivity|lra].
  - change (tb_grid ex_tab "P") with (100000 :: 300000 :: 2000000 :: nil). exists 100000, 2000000. split; [reflexivity|]. split; [reflexivity|lra].
Qed.
Lemma ex_index ix j k : index_ok ex_tab ("FAR" :: nil) ix j k -> exists i, ix = i :: nil /\ (j < 3)%nat /\ (k < 3)%nat.
Proof. intros (L & _ & H2 & H3). destruct ix as [|i [|]]; try discriminate. cbn in H2, H3. exists i. auto. Qed.
Theorem C69_nonvacuous : table_ok ex_tab ("FAR" :: nil) /\ in_range ex_tab ("FAR" :: nil) 200000 ex_far /\ rises ex_tab ("FAR" :: nil) "h" /\ rises ex_tab ("FAR" :: nil) "S" /\ ideal_table ex_tab ("FAR" :: nil) 287 /\
  (forall ix j k k', index_ok ex_tab ("FAR" :: nil) ix j k -> index_ok ex_tab ("FAR" :: nil) ix j k' -> (k < k')%nat -> entry ex_tab "rho" ix j k' < entry ex_tab "rho" ix j k) /\
  (exists p, tab_tp ex_tab ("FAR" :: nil) 800 200000 ex_far p /\ p "h" = 800000 /\ 287 * p "rho" * 800 = 200000 * (1 + 1 / 9)).
Proof.
  assert (H1 := ex_ok). assert (H2 := ex_in).
  assert (H3 : rises ex_tab ("FAR" :: nil) "h").
  { intros ix j k k' X Y L. destruct (ex_index _ _ _ X) as (i & -> & _ & _), (ex_index _ _ _ Y) as (i' & _ & _ & K). unfold entry. cbn [ex_tab tb_val String.eqb Ascii.eqb Bool.eqb app nth]. change (ex_grid "T") with (300 :: 600 :: 1200 :: nil).
    destruct k' as [|[|[|]]]; try lia; destruct k as [|[|]]; try lia; cbn [nth]; lra. }
  assert (H4 : rises ex_tab ("FAR" :: nil) "S").
  { intros ix j k k' X Y L. destruct (ex_index _ _ _ X) as (i & -> & _ & _). unfold entry. cbn [ex_tab tb_val String.eqb Ascii.eqb Bool.eqb app nth]. apply lt_INR in L. lra. }
  assert (H5 : ideal_table ex_tab ("FAR" :: nil) 287).
  { intros ix j k X. destruct (ex_index _ _ _ X) as (i & -> & _ & _). split; reflexivity. }
  do 5 (split; [assumption|]). split.
  - intros ix j k k' X Y L. destruct (ex_index _ _ _ X) as (i & -> & Kj & _), (ex_index _ _ _ Y) as (i' & _ & _ & K). unfold entry. cbn [ex_tab tb_val String.eqb Ascii.eqb Bool.eqb app nth].
    change (ex_grid "T") with (300 :: 600 :: 1200 :: nil). change (ex_grid "P") with (100000 :: 300000 :: 2000000 :: nil).
    destruct k' as [|[|[|]]]; try lia; destruct k as [|[|]]; try lia; destruct j as [|[|[|]]]; try lia; cbn [nth]; lra.
  - destruct (proj1 (C69_function ex_tab ("FAR" :: nil) 800 200000 ex_far)) as (p & Hp). exists p. split; [exact Hp|].
    assert (T : (S 1 < List.length (tb_grid ex_tab "T"))%nat) by (cbn; lia).
    assert (G : 0 < nth 1 (tb_grid ex_tab "T") 0 /\ nth 1 (tb_grid ex_tab "T") 0 <= 800 <= nth 2 (tb_grid ex_tab "T") 0) by (cbn [tb_grid ex_tab]; change (ex_grid "T") with (300 :: 600 :: 1200 :: nil); cbn [nth]; lra).
    assert (Q := C69_ideal_gas ex_tab ("FAR" :: nil) 287 800 200000 ex_far p 1 H1 ltac:(lra) H5 Hp T (proj1 G) (proj2 G)).
    assert (ER := C69_linear ex_tab ("FAR" :: nil) 800 200000 ex_far p "R" "R" "R" 1 0 0 287 H1 Hp ltac:(cbn; tauto) ltac:(cbn; tauto) ltac:(cbn; tauto)).
    assert (ER' : p "R" = 287). { assert (1 * p "R" + 0 * p "R" + 0 * p "R" = 287); [|lra]. apply ER. intros ix j k X. rewrite (proj1 (H5 ix j k X)). ring. } split.
    + rewrite (Hp "h") by (cbn; tauto). rewrite axes_split, <- app_assoc. unfold tab_point. cbn [app].
      rewrite (drop_comp (cgs ex_tab ("FAR" :: nil)) (tb_grid ex_tab "P" :: tb_grid ex_tab "T" :: nil) _ (fun jx => 1000 * nth (nth 1 jx 0%nat) (tb_grid ex_tab "T") 0)).
      * cbn [interpN nth]. change (tb_grid ex_tab "P") with (100000 :: 300000 :: 2000000 :: nil). change (tb_grid ex_tab "T") with (300 :: 600 :: 1200 :: nil).
        rewrite lin_const by (cbn; lia). cbn [List.length seq map nth lin]. destruct (Rlt_dec 800 600); [lra|]. field.
      * constructor; [cbn; lia|constructor].
      * reflexivity.
      * reflexivity.
      * intros ix jx Hix Hjx. inversion Hix as [|i ? ix' ? Hi Hix']; subst. inversion Hix'; subst. reflexivity.
    + rewrite ER' in Q. replace (287 * p "rho" * 800) with (p "rho" * 287 * 800) by ring. rewrite Q. cbn [tb_grid ex_tab]. change (ex_grid "T") with (300 :: 600 :: 1200 :: nil). cbn [nth]. field.
Qed.
