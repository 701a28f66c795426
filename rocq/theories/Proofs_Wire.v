(* General facts about wiring: names, promotion, units. *)
From Verif Require Import Spec_Wire Model_Thermo.
Open Scope string_scope. Open Scope list_scope. Open Scope R_scope.

Lemma sapp_assoc (a b c : string) : ((a ++ b) ++ c)%string = (a ++ (b ++ c))%string.
Proof. induction a; cbn; congruence. Qed.
Lemma sapp_inj (a b c : string) : (a ++ b)%string = (a ++ c)%string -> b = c.
Proof. induction a; cbn; intros H; [auto|]. injection H; auto. Qed.
Lemma prefix_app (a b : string) : prefix a (a ++ b) = true.
Proof. induction a; [destruct b; reflexivity|]. cbn. destruct (Ascii.ascii_dec a a); [auto|congruence]. Qed.
(* is s a suffix of z? decides all collisions of a computed name fl ++ s with a fixed name z *)
Lemma suffixb_app p s : suffixb s (p ++ s) = true.
Proof. induction p; cbn; [destruct s; cbn; [reflexivity|]; rewrite Ascii.eqb_refl, String.eqb_refl; reflexivity|]. rewrite IHp. apply orb_true_r. Qed.
Lemma eqb_suffix p s z : suffixb s z = false -> String.eqb z (p ++ s) = false.
Proof. intros H. apply String.eqb_neq. intros ->. rewrite suffixb_app in H. discriminate. Qed.
Lemma neq_suffix p s z : suffixb s z = false -> z <> (p ++ s)%string.
Proof. intros H ->. rewrite suffixb_app in H. discriminate. Qed.
Lemma neq_suffix' p s z : suffixb s z = false -> (p ++ s)%string <> z.
Proof. intros H E. subst z. rewrite suffixb_app in H. discriminate. Qed.

Lemma memb_in x l : memb x l = true <-> In x l.
Proof.
  unfold memb. rewrite existsb_exists. split.
  - intros (y & Hy & E). apply String.eqb_eq in E. subst; auto.
  - intros H. exists x. split; [auto|apply String.eqb_refl].
Qed.
Lemma memb_not x l : memb x l = false <-> ~ In x l.
Proof. rewrite <- memb_in. destruct (memb x l); split; congruence. Qed.
Lemma in_dedup x l : In x (dedup l) <-> In x l.
Proof.
  induction l as [|y r IH]; cbn; [tauto|]. destruct (memb y r) eqn:E.
  - rewrite IH. split; [auto|]. intros [<-|H]; [|auto]. apply memb_in; auto.
  - cbn. rewrite IH. tauto.
Qed.
Lemma in_g_ins g x : In x (g_ins g) <-> In x (flat_map in_names (subs g)) /\ ~ In x (g_outs g) /\ ~ In x (map snd (conns g)).
Proof.
  unfold g_ins. rewrite in_dedup, filter_In, negb_true_iff, orb_false_iff, !memb_not. tauto.
Qed.

Lemma ufac_pos u : 0 < ufac u.
Proof.
  unfold ufac, units, u_hp, u_lbf, u_btu, u_cal, u_lbm, u_ft, u_inch. cbn [lookup].
  repeat (destruct (String.eqb u _); [lra|]). lra.
Qed.
Lemma ufac_n0 u : ufac u <> 0.
Proof. pose proof (ufac_pos u). lra. Qed.
Lemma udiv_eq u a b : a / ufac u = b / ufac u -> a = b.
Proof. intros H. pose proof (ufac_n0 u). apply (Rmult_eq_compat_r (ufac u)) in H. unfold Rdiv in H. rewrite !Rmult_assoc, Rinv_l, !Rmult_1_r in H by auto. auto. Qed.

Lemma lookup_unit {A} (d : A) fl l x :
  lookup d (map (fun m => ((fl ++ ":" ++ fst m)%string, snd m)) l) (fl ++ ":" ++ x) = lookup d l x.
Proof.
  induction l as [|[y a] r IH]; cbn; [reflexivity|].
  destruct (String.eqb x y) eqn:E.
  - apply String.eqb_eq in E. subst. rewrite String.eqb_refl. reflexivity.
  - destruct (String.eqb (fl ++ ":" ++ x) (fl ++ ":" ++ y)) eqn:E2; [|cbn in E2; rewrite E2; exact IH].
    exfalso. apply String.eqb_eq in E2. apply sapp_inj in E2. injection E2 as E2. apply String.eqb_neq in E. auto.
Qed.
Lemma forall2_map {A B} (P : A -> B -> Prop) (f : A -> B) l : Forall2 P l (map f l) <-> (forall x, In x l -> P x (f x)).
Proof.
  induction l as [|a r IH]; cbn.
  - split; [intros _ x []|constructor].
  - split.
    + intros H. inversion H; subst. intros x [<-|Hx]; [auto|]. apply IH; auto.
    + intros H. constructor; [auto|]. apply IH. auto.
Qed.
Lemma unit_names fl l : names (unit_outs fl l) = map (fun x => (fl ++ ":" ++ x)%string) (names l).
Proof. unfold names, unit_outs. rewrite !map_map. reflexivity. Qed.
Lemma gname_unit name fl x : gname name [PG (fl ++ ":")%string] (fl ++ ":" ++ x) = (fl ++ ":" ++ x)%string.
Proof. unfold gname, pname. rewrite <- sapp_assoc, prefix_app. reflexivity. Qed.
(* a unit conversion component makes every station variable equal to the variable it is promoted from *)
Lemma unit_sub_iff name fl l pi w : srel (unit_sub name fl l pi) (lin (unit_sub name fl l pi) w) (lout (unit_sub name fl l pi) w) <->
  (forall x, In x (names l) -> forall k, w (fl ++ ":" ++ x)%string k = w (gname name pi x) k).
Proof.
  unfold unit_sub at 1. cbn [srel]. unfold unit_rel. rewrite unit_names, forall2_map. unfold lin, lout, unit_sub; cbn [sname pin pout sins souts].
  split; intros H x Hx k; specialize (H x Hx k); rewrite gname_unit in *; unfold unit_of, unit_outs in *; rewrite lookup_unit in *.
  - apply udiv_eq in H. auto.
  - rewrite H. reflexivity.
Qed.
Lemma unit_out_names name fl l pi : out_names (unit_sub name fl l pi) = map (fun x => (fl ++ ":" ++ x)%string) (names l).
Proof. unfold out_names, unit_sub; cbn [sname pout souts]. rewrite unit_names, map_map. apply map_ext. intros x. apply gname_unit. Qed.
