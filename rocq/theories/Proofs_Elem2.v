(* The converse of Proofs_Elem: values that are consistent at a station make the Thermo subsystem solved (used to exhibit converged elements). *)
From Coq Require Import FunctionalExtensionality Ascii Lia.
From Verif Require Import Lib_R Spec_Wire Model_Thermo Proofs_Wire Prop_Static Prop_Thermo Model_Elem1 Proofs_Elem.
Open Scope string_scope. Open Scope list_scope. Open Scope R_scope.

(* the inner state of a group used as a subsystem *)
Definition inner (nm : string) (g : group) (pi po : list promo) (w : state) : state := fun x k =>
  if memb x (g_outs g) then w (gname nm po x) k
  else match find (fun c => String.eqb (snd c) x) (conns g) with Some c => w (gname nm po (fst c)) k | None => w (gname nm pi x) k end.
Section Inner.
Variables (nm : string) (g : group) (pi po : list promo) (w : state).
Hypothesis Hw : wired g.
Let w' := inner nm g pi po w.
Lemma inner_out x k : In x (g_outs g) -> w' x k = w (gname nm po x) k.
Proof. intros H. unfold w', inner. rewrite (proj2 (memb_in x (g_outs g)) H). reflexivity. Qed.
Lemma inner_in x k : In x (g_ins g) -> w' x k = w (gname nm pi x) k.
Proof.
  intros H. apply in_g_ins in H as (_ & H1 & H2). unfold w', inner. rewrite (proj2 (memb_not x (g_outs g)) H1).
  destruct (find _ _) as [c|] eqn:E; [|reflexivity]. apply find_some in E as [E1 E2]. apply String.eqb_eq in E2. exfalso. apply H2. rewrite <- E2. apply in_map. exact E1.
Qed.
Lemma nodup_snd_eq {A B} (l : list (A * B)) a a' b : NoDup (map snd l) -> In (a, b) l -> In (a', b) l -> a = a'.
Proof.
  induction l as [|[x y] r IH]; cbn; [intros _ []|]. intros N H1 H2. apply NoDup_cons_iff in N as [N1 N2].
  destruct H1 as [H1|H1], H2 as [H2|H2].
  - congruence.
  - exfalso. apply N1. apply (in_map snd) in H2. cbn in H2. congruence.
  - exfalso. apply N1. apply (in_map snd) in H1. cbn in H1. congruence.
  - auto.
Qed.
Lemma inner_conn a b k : In (a, b) (conns g) -> w' b k = w' a k.
Proof.
  intros H. destruct (w_tgt g Hw a b H) as [_ N]. rewrite (inner_out a k (w_src g Hw a b H)). unfold w', inner. rewrite (proj2 (memb_not b (g_outs g)) N).
  destruct (find _ _) as [c|] eqn:E.
  - apply find_some in E as [E1 E2]. apply String.eqb_eq in E2. destruct c as [c d]. cbn in *. subst d. rewrite (nodup_snd_eq _ a c b (w_one g Hw) H E1). reflexivity.
  - exfalso. apply (find_none _ _ E) in H. cbn in H. rewrite String.eqb_refl in H. discriminate.
Qed.
Lemma group_close : (forall s, In s (subs g) -> srel s (lin s w') (lout s w')) -> srel (group_sub nm g pi po) (lin (group_sub nm g pi po) w) (lout (group_sub nm g pi po) w).
Proof.
  intros H. cbn [group_sub srel]. exists w'. split; [split; [exact H|intros a b Hab k; apply inner_conn; exact Hab]|].
  split; intros x k Hx; unfold lin, lout, group_sub; cbn [sname pin pout sins souts]; rewrite unit_plain, ufac_none; [rewrite inner_in by exact Hx|rewrite inner_out by exact Hx]; field.
Qed.
End Inner.

(* the property calculation only concerns the seven properties *)
Definition tp_local (tp : R -> R -> (nat -> R) -> (string -> R) -> Prop) : Prop :=
  forall T P c p p', (forall x, In x prop_names -> p x = p' x) -> tp T P c p -> tp T P c p'.
Lemma base_make tp me m w P p : tp_local tp ->
  gname "base_thermo" (base_pin m) "T" = "T" -> gname "base_thermo" (base_pin m) "P" = P -> gname "base_thermo" (base_pin m) "composition" = "composition" ->
  tp (w "T" 0%nat) (w P 0%nat / ufac (p_unit me)) (w "composition") p ->
  (forall x, In x prop_names -> w (gname "base_thermo" (base_pout m) x) 0%nat = p x * ufac (prop_unit me x)) ->
  srel (base_sub tp me m) (lin (base_sub tp me m) w) (lout (base_sub tp me m) w).
Proof.
  intros L ET EP EC H Hx. cbn [base_sub srel]. unfold lin; cbn [base_sub sname pin sins]. rewrite ET, EP, EC.
  assert (U1 : ufac (unit_of (base_ins me) "T") = 1) by (destruct me; reflexivity).
  assert (U2 : ufac (unit_of (base_ins me) "composition") = 1) by (destruct me; reflexivity).
  assert (U3 : unit_of (base_ins me) "P" = p_unit me) by (destruct me; reflexivity).
  rewrite U1, U2, U3.
  replace (fun k : nat => w "composition" k / 1) with (w "composition") by (apply functional_extensionality; intros; field).
  replace (w "T" 0%nat / 1) with (w "T" 0%nat) by field.
  eapply L; [|exact H]. intros x Hi. unfold lout; cbn [base_sub sname pout souts]. fold (prop_unit me x). rewrite Hx by exact Hi. field. apply ufac_n0.
Qed.
Lemma balance_make m rhs w : gname "balance" (balance_pin m) "lhs:T" = "balance.lhs:T" -> gname "balance" (balance_pin m) "rhs:T" = rhs ->
  unit_of (balance_ins m) "lhs:T" = unit_of (balance_ins m) "rhs:T" -> w "balance.lhs:T" 0%nat = w rhs 0%nat ->
  srel (balance_sub m) (lin (balance_sub m) w) (lout (balance_sub m) w).
Proof. intros G1 G2 U H. cbn [balance_sub srel]. unfold lin. cbn [balance_sub sname pin sins]. rewrite G1, G2, U, H. reflexivity. Qed.

Section T.
Variable tp : R -> R -> (nat -> R) -> (string -> R) -> Prop.
Variable me : method.
Hypothesis Htp : tp_local tp.
Variables (nm fl fl' : string) (pi po : list promo) (w : state).
Hypothesis Hfl : ok_name fl.
Hypothesis Hsh : shows nm po fl fl'.
Let gi x := gname nm pi x.
Let go x := gname nm po x.
(* the outputs that a mode also offers under their plain names agree with the station *)
Definition plain_outs (m : mode) : Prop := forall x, In x (fixed_outs m) -> dotted x = false -> same w (go x) (at_ fl' (if String.eqb x "Ps" then "P" else x)).
Lemma plain_out m x y : plain_outs m -> In x (fixed_outs m) -> dotted x = false -> (if String.eqb x "Ps" then "P" else x) = y -> same w (at_ fl' y) (go x).
Proof. intros H H1 H2 H3 k. symmetry. rewrite <- H3. apply H; assumption. Qed.
Lemma outs_of m x : In x (fixed_outs m) -> In x (g_outs (thermo tp me m fl)).
Proof. intros H. rewrite thermo_outs. apply in_or_app. left. exact H. Qed.
Lemma mk_state m : exists w', (forall x k, In x (fixed_outs m) -> w' x k = w (go x) k) /\ (forall x k, In x (station_vars m) -> w' (at_ fl x) k = w (at_ fl' x) k) /\
  (forall x k, In x (needed m ++ stray m) -> w' x k = w (gi x) k) /\ (forall a b k, In (a, b) (conns (thermo tp me m fl)) -> w' b k = w' a k) /\
  ((forall s, In s (subs (thermo tp me m fl)) -> srel s (lin s w') (lout s w')) ->
   srel (tsub tp me nm m fl pi po) (lin (tsub tp me nm m fl pi po) w) (lout (tsub tp me nm m fl pi po) w)).
Proof.
  exists (inner nm (thermo tp me m fl) pi po w). pose proof (C42_wired tp me m fl Hfl) as Hw. repeat split.
  - intros x k Hx. apply inner_out. apply outs_of. exact Hx.
  - intros x k Hx. rewrite inner_out by (apply C42_outputs; assumption). rewrite Hsh. reflexivity.
  - intros x k Hx. apply inner_in. apply C42_inputs; assumption.
  - intros a b k Hab. apply inner_conn; assumption.
  - intros H. apply group_close; assumption.
Qed.
Ltac dsub H := cbn in H; repeat destruct H as [<-|H]; try contradiction.
(* total states *)
Lemma mk_TP p : tp (w (at_ fl' "T") 0%nat) (w (at_ fl' "P") 0%nat / ufac (p_unit me)) (w (at_ fl' "composition")) p ->
  (forall x, In x prop_names -> w (at_ fl' x) 0%nat = p x * ufac (prop_unit me x)) ->
  (forall x, In x ["T"; "P"; "composition"] -> same w (at_ fl' x) (gi x)) -> (forall x, In x prop_names -> same w (at_ fl' x) (go x)) ->
  srel (tsub tp me nm total_TP fl pi po) (lin (tsub tp me nm total_TP fl pi po) w) (lout (tsub tp me nm total_TP fl pi po) w).
Proof.
  intros Hp Hx HI HO. destruct (mk_state total_TP) as (w' & Eo & Es & Ei & Ec & Hc). apply Hc. intros s Hs. dsub Hs.
  - apply (base_make tp me total_TP w' "P" p Htp eq_refl eq_refl eq_refl).
    + rewrite !Ei by inp. rewrite <- (HI "T"), <- (HI "P") by inp.
      replace (w' "composition") with (w (at_ fl' "composition")) by (apply functional_extensionality; intros k; rewrite Ei by inp; apply HI; inp). exact Hp.
    + intros x Hi. rewrite <- Hx by exact Hi. rewrite HO by exact Hi. cbn in Hi. repeat destruct Hi as [<-|Hi]; try contradiction; apply Eo; inp.
  - apply unit_sub_iff. intros x Hi k. change (fl ++ ":" ++ x)%string with (at_ fl x). rewrite Es by (cbn in Hi |- *; tauto).
    cbn in Hi. repeat destruct Hi as [<-|Hi]; try contradiction; first [rewrite HI by inp; symmetry; apply Ei; inp | rewrite HO by inp; symmetry; apply Eo; inp].
Qed.
Lemma mk_hP p : tp (w (at_ fl' "T") 0%nat) (w (at_ fl' "P") 0%nat / ufac (p_unit me)) (w (at_ fl' "composition")) p ->
  (forall x, In x prop_names -> w (at_ fl' x) 0%nat = p x * ufac (prop_unit me x)) ->
  (forall x, In x ["h"; "P"; "composition"] -> same w (at_ fl' x) (gi x)) -> (forall x, In x ["T"; "S"; "gamma"; "Cp"; "Cv"; "rho"; "R"] -> same w (at_ fl' x) (go x)) ->
  w (go "base_thermo.h") 0%nat = w (at_ fl' "h") 0%nat ->
  srel (tsub tp me nm total_hP fl pi po) (lin (tsub tp me nm total_hP fl pi po) w) (lout (tsub tp me nm total_hP fl pi po) w).
Proof.
  intros Hp Hx HI HO HB. destruct (mk_state total_hP) as (w' & Eo & Es & Ei & Ec & Hc). apply Hc. intros s Hs. dsub Hs.
  - apply (base_make tp me total_hP w' "P" p Htp eq_refl eq_refl eq_refl).
    + rewrite (Eo "T"), (Ei "P") by inp. rewrite <- (HO "T"), <- (HI "P") by inp.
      replace (w' "composition") with (w (at_ fl' "composition")) by (apply functional_extensionality; intros k; rewrite Ei by inp; apply HI; inp). exact Hp.
    + intros x Hi. rewrite <- Hx by exact Hi. cbn in Hi. repeat destruct Hi as [<-|Hi]; try contradiction;
        first [rewrite <- HB; apply (Eo "base_thermo.h"); inp | rewrite HO by inp; apply Eo; inp].
  - apply (balance_make total_hP "h" w' eq_refl eq_refl eq_refl). rewrite (Ec "base_thermo.h" "balance.lhs:T") by inp. rewrite (Eo "base_thermo.h"), (Ei "h") by inp. rewrite HB. apply HI; inp.
  - apply unit_sub_iff. intros x Hi k. change (fl ++ ":" ++ x)%string with (at_ fl x). rewrite Es by (cbn in Hi |- *; tauto).
    cbn in Hi. repeat destruct Hi as [<-|Hi]; try contradiction; first [rewrite HI by inp; symmetry; apply Ei; inp | rewrite HO by inp; symmetry; apply Eo; inp].
Qed.
Lemma mk_SP p : tp (w (at_ fl' "T") 0%nat) (w (at_ fl' "P") 0%nat / ufac (p_unit me)) (w (at_ fl' "composition")) p ->
  (forall x, In x prop_names -> w (at_ fl' x) 0%nat = p x * ufac (prop_unit me x)) ->
  (forall x, In x ["S"; "P"; "composition"] -> same w (at_ fl' x) (gi x)) -> (forall x, In x ["T"; "h"; "gamma"; "Cp"; "Cv"; "rho"; "R"] -> same w (at_ fl' x) (go x)) ->
  w (go "base_thermo.S") 0%nat = w (at_ fl' "S") 0%nat ->
  srel (tsub tp me nm total_SP fl pi po) (lin (tsub tp me nm total_SP fl pi po) w) (lout (tsub tp me nm total_SP fl pi po) w).
Proof.
  intros Hp Hx HI HO HB. destruct (mk_state total_SP) as (w' & Eo & Es & Ei & Ec & Hc). apply Hc. intros s Hs. dsub Hs.
  - apply (base_make tp me total_SP w' "P" p Htp eq_refl eq_refl eq_refl).
    + rewrite (Eo "T"), (Ei "P") by inp. rewrite <- (HO "T"), <- (HI "P") by inp.
      replace (w' "composition") with (w (at_ fl' "composition")) by (apply functional_extensionality; intros k; rewrite Ei by inp; apply HI; inp). exact Hp.
    + intros x Hi. rewrite <- Hx by exact Hi. cbn in Hi. repeat destruct Hi as [<-|Hi]; try contradiction;
        first [rewrite <- HB; apply (Eo "base_thermo.S"); inp | rewrite HO by inp; apply Eo; inp].
  - apply (balance_make total_SP "S" w' eq_refl eq_refl eq_refl). rewrite (Ec "base_thermo.S" "balance.lhs:T") by inp. rewrite (Eo "base_thermo.S"), (Ei "S") by inp. rewrite HB. apply HI; inp.
  - apply unit_sub_iff. intros x Hi k. change (fl ++ ":" ++ x)%string with (at_ fl x). rewrite Es by (cbn in Hi |- *; tauto).
    cbn in Hi. repeat destruct Hi as [<-|Hi]; try contradiction; first [rewrite HI by inp; symmetry; apply Ei; inp | rewrite HO by inp; symmetry; apply Eo; inp].
Qed.
(* static states: the composition output of the station is a free input *)
Lemma static_make m (w' : state) p : In m [static_MN; static_A; static_Ps] ->
  (forall x k, In x (fixed_outs m) -> w' x k = w (go x) k) -> (forall x k, In x (station_vars m) -> w' (at_ fl x) k = w (at_ fl' x) k) ->
  (forall x k, In x (needed m ++ stray m) -> w' x k = w (gi x) k) -> (forall a b k, In (a, b) (conns (thermo tp me m fl)) -> w' b k = w' a k) ->
  tp (w (at_ fl' "T") 0%nat) (w (at_ fl' "P") 0%nat / ufac (p_unit me)) (w (gi "composition")) p ->
  (forall x, In x prop_names -> w (at_ fl' x) 0%nat = p x * ufac (prop_unit me x)) ->
  (forall x, In x ["S"; "W"] -> same w (at_ fl' x) (gi x)) -> same w (at_ fl' "composition") (gi "flow.composition") ->
  (forall x, In x ["T"; "h"; "gamma"; "Cp"; "Cv"; "rho"; "R"; "V"; "Vsonic"] -> same w (at_ fl' x) (go x)) ->
  (match m with static_MN => same w (at_ fl' "MN") (gi "MN") /\ same w (at_ fl' "area") (go "area") /\ same w (at_ fl' "P") (go "Ps")
   | static_A => same w (at_ fl' "MN") (go "MN") /\ same w (at_ fl' "area") (gi "area") /\ same w (at_ fl' "P") (go "Ps")
   | _ => same w (at_ fl' "MN") (go "MN") /\ same w (at_ fl' "area") (go "area") /\ same w (at_ fl' "P") (gi "Ps") end) ->
  w (go "base_thermo.S") 0%nat = w (at_ fl' "S") 0%nat ->
  srel (base_sub tp me m) (lin (base_sub tp me m) w') (lout (base_sub tp me m) w') /\
  srel (balance_sub m) (lin (balance_sub m) w') (lout (balance_sub m) w') /\
  srel (flow_sub m fl) (lin (flow_sub m fl) w') (lout (flow_sub m fl) w') /\ srel (flow_static_sub fl) (lin (flow_static_sub fl) w') (lout (flow_static_sub fl) w') /\
  (forall x, In x ["T"; "h"; "gamma"; "R"; "rho"; "V"; "Vsonic"; "MN"; "area"; "W"; "S"] -> w' x 0%nat = w (at_ fl' x) 0%nat).
Proof.
  intros Hm Eo Es Ei Ec Hp Hx HI HF HO HM HB.
  assert (K : forall x, In x ["T"; "h"; "gamma"; "Cp"; "Cv"; "R"; "rho"; "V"; "Vsonic"; "MN"; "area"; "W"; "S"] -> same w' x x /\ forall k, w' x k = w (at_ fl' x) k).
  { intros x Hi. split; [intros k; reflexivity|]. intros k. cbn in Hm. repeat destruct Hm as [<-|Hm]; try contradiction; destruct HM as (M1 & M2 & M3);
    cbn in Hi; repeat destruct Hi as [<-|Hi]; try contradiction;
      first [rewrite HI by inp; apply Ei; inp | rewrite HO by inp; apply Eo; inp | rewrite M1; (apply Ei; inp) || (apply Eo; inp) | rewrite M2; (apply Ei; inp) || (apply Eo; inp)]. }
  assert (P : forall k, w' "Ps" k = w (at_ fl' "P") k).
  { intros k. cbn in Hm. repeat destruct Hm as [<-|Hm]; try contradiction; destruct HM as (M1 & M2 & M3); rewrite M3; (apply Ei; inp) || (apply Eo; inp). }
  assert (B : w' "base_thermo.S" 0%nat = w (at_ fl' "S") 0%nat) by (rewrite <- HB; apply Eo; cbn in Hm; repeat destruct Hm as [<-|Hm]; try contradiction; inp).
  assert (C : w' "composition" = w (gi "composition")) by (apply functional_extensionality; intros k; apply Ei; cbn in Hm; repeat destruct Hm as [<-|Hm]; try contradiction; inp).
  assert (S : forall x, In x ["area"; "W"; "V"; "Vsonic"; "MN"; "T"; "P"; "h"; "S"; "gamma"; "Cp"; "Cv"; "rho"; "R"; "composition"] -> forall k, w' (at_ fl x) k = w (at_ fl' x) k)
    by (intros x Hi k; apply Es; cbn in Hm; repeat destruct Hm as [<-|Hm]; try contradiction; cbn in Hi |- *; tauto).
  assert (Q : forall G : Prop, (m = static_MN -> G) -> (m = static_A -> G) -> (m = static_Ps -> G) -> G) by (intros G; destruct m; cbn in Hm; intuition discriminate).
  split; [|split; [|split; [|split]]].
  - apply (base_make tp me m w' "Ps" p Htp); [apply Q; intros ->; reflexivity ..| |].
    + rewrite P, C, (proj2 (K "T" ltac:(inp))). exact Hp.
    + intros x Hi. rewrite <- Hx by exact Hi.
      assert (G : x = "S" \/ gname "base_thermo" (base_pout m) x = x /\ In x ["h"; "gamma"; "Cp"; "Cv"; "rho"; "R"]).
      { cbn in Hi. repeat destruct Hi as [<-|Hi]; try (left; reflexivity); try contradiction; right; (split; [apply Q; intros ->; reflexivity|inp]). }
      destruct G as [->|[-> G]]; [replace (gname "base_thermo" (base_pout m) "S") with "base_thermo.S" by (apply Q; intros ->; reflexivity); exact B|].
      apply K. cbn in G |- *. tauto.
  - apply (balance_make m "S" w'); [apply Q; intros ->; reflexivity ..|]. rewrite (Ec "base_thermo.S" "balance.lhs:T") by (apply Q; intros ->; inp). rewrite B. symmetry. apply K. inp.
  - apply unit_sub_iff. intros x Hi k. change (fl ++ ":" ++ x)%string with (at_ fl x). rewrite S by (cbn in Hi |- *; tauto).
    assert (G : (x = "P" /\ gname "flow" (flow_pin m) x = "Ps") \/ (x = "composition" /\ gname "flow" (flow_pin m) x = "flow.composition") \/
      (gname "flow" (flow_pin m) x = x /\ In x ["T"; "h"; "S"; "gamma"; "Cp"; "Cv"; "rho"; "R"])).
    { cbn in Hi. repeat destruct Hi as [<-|Hi]; try contradiction;
        first [left; split; [reflexivity|apply Q; intros ->; reflexivity] | right; left; split; [reflexivity|apply Q; intros ->; reflexivity] | right; right; split; [apply Q; intros ->; reflexivity|inp]]. }
    destruct G as [[-> G]|[[-> G]|[G G']]]; rewrite G; symmetry; [apply P| |apply K; cbn in G' |- *; tauto].
    rewrite HF. apply Ei. apply Q; intros ->; inp.
  - apply unit_sub_iff. intros x Hi k. change (fl ++ ":" ++ x)%string with (at_ fl x). rewrite S by (cbn in Hi |- *; tauto). symmetry.
    cbn in Hi. repeat destruct Hi as [<-|Hi]; try contradiction; apply K; inp.
  - intros x Hi. apply K. cbn in Hi |- *. tauto.
Qed.
(* consistent static values in w, for the three modes *)
Definition static_vals (ht : R) : Prop := static_ok w fl' ht.
Lemma mk_MN p : tp (w (at_ fl' "T") 0%nat) (w (at_ fl' "P") 0%nat / ufac (p_unit me)) (w (gi "composition")) p ->
  (forall x, In x prop_names -> w (at_ fl' x) 0%nat = p x * ufac (prop_unit me x)) ->
  (forall x, In x ["S"; "W"; "MN"] -> same w (at_ fl' x) (gi x)) -> same w (at_ fl' "composition") (gi "flow.composition") ->
  (forall x, In x ["T"; "h"; "gamma"; "Cp"; "Cv"; "rho"; "R"; "V"; "Vsonic"; "area"] -> same w (at_ fl' x) (go x)) -> same w (at_ fl' "P") (go "Ps") ->
  w (go "base_thermo.S") 0%nat = w (at_ fl' "S") 0%nat ->
  w (gi "ht") 0%nat <> 0 -> 0 < w (at_ fl' "gamma") 0%nat * w (at_ fl' "R") 0%nat * w (at_ fl' "T") 0%nat -> w (at_ fl' "rho") 0%nat <> 0 -> / 10 ^ 16 <= w (at_ fl' "MN") 0%nat ->
  static_ok w fl' (w (gi "ht") 0%nat) ->
  srel (tsub tp me nm static_MN fl pi po) (lin (tsub tp me nm static_MN fl pi po) w) (lout (tsub tp me nm static_MN fl pi po) w).
Proof.
  intros Hp Hx HI HF HO HP HB Hh Hg Hr HM F. destruct (mk_state static_MN) as (w' & Eo & Es & Ei & Ec & Hc). apply Hc.
  destruct (static_make static_MN w' p ltac:(inp) Eo Es Ei Ec Hp Hx ltac:(intros x Hi; apply HI; cbn in Hi |- *; tauto) HF ltac:(intros x Hi; apply HO; cbn in Hi |- *; tauto)
    ltac:(split; [apply HI; inp|split; [apply HO; inp|exact HP]]) HB) as (B1 & B2 & B3 & B4 & K).
  assert (Kh : w' "ht" 0%nat = w (gi "ht") 0%nat) by (apply Ei; inp).
  intros s Hs. dsub Hs; [exact B1|exact B2| |exact B3|exact B4].
  cbn [ps_MN_sub srel]. set (e := impl_env ps_resid_MN (lin ps_MN_sub w') (lout ps_MN_sub w')).
  assert (D : forall a : R, a / 1 = a) by (intros; field).
  assert (E : e (V "gamma") = w (at_ fl' "gamma") 0%nat /\ e (V "R") = w (at_ fl' "R") 0%nat /\ e (V "Ts") = w (at_ fl' "T") 0%nat /\ e (V "ht") = w (gi "ht") 0%nat /\
     e (V "hs") = w (at_ fl' "h") 0%nat /\ e (V "W") = w (at_ fl' "W") 0%nat /\ e (V "rho") = w (at_ fl' "rho") 0%nat /\ e (V "MN") = w (at_ fl' "MN") 0%nat /\
     e (V "V") = w (at_ fl' "V") 0%nat /\ e (V "Vsonic") = w (at_ fl' "Vsonic") 0%nat /\ e (V "area") = w (at_ fl' "area") 0%nat).
  { rewrite <- Kh. rewrite <- !K by inp.
    change (w' "gamma" 0%nat / 1 = w' "gamma" 0%nat /\ w' "R" 0%nat / 1 = w' "R" 0%nat /\ w' "T" 0%nat / 1 = w' "T" 0%nat /\ w' "ht" 0%nat / 1 = w' "ht" 0%nat /\
      w' "h" 0%nat / 1 = w' "h" 0%nat /\ w' "W" 0%nat / 1 = w' "W" 0%nat /\ w' "rho" 0%nat / 1 = w' "rho" 0%nat /\ w' "MN" 0%nat / 1 = w' "MN" 0%nat /\ w' "V" 0%nat / 1 = w' "V" 0%nat /\
      w' "Vsonic" 0%nat / 1 = w' "Vsonic" 0%nat /\ w' "area" 0%nat / 1 = w' "area" 0%nat). rewrite !D. repeat split; reflexivity. }
  destruct E as (E1 & E2 & E3 & E4 & E5 & E6 & E7 & E8 & E9 & E10 & E11).
  assert (G : converged ps_resid_MN e (fun _ => 0)); [|exact G].
  apply C26_mach_mode_partial; rewrite ?E1, ?E2, ?E3, ?E4, ?E7, ?E8; auto.
  unfold flow_state_ok. rewrite E1, E2, E3, E4, E5, E6, E7, E8, E9, E10, E11. exact F.
Qed.
Lemma mk_A p : tp (w (at_ fl' "T") 0%nat) (w (at_ fl' "P") 0%nat / ufac (p_unit me)) (w (gi "composition")) p ->
  (forall x, In x prop_names -> w (at_ fl' x) 0%nat = p x * ufac (prop_unit me x)) ->
  (forall x, In x ["S"; "W"; "area"] -> same w (at_ fl' x) (gi x)) -> same w (at_ fl' "composition") (gi "flow.composition") ->
  (forall x, In x ["T"; "h"; "gamma"; "Cp"; "Cv"; "rho"; "R"; "V"; "Vsonic"; "MN"] -> same w (at_ fl' x) (go x)) -> same w (at_ fl' "P") (go "Ps") ->
  w (go "base_thermo.S") 0%nat = w (at_ fl' "S") 0%nat ->
  w (gi "ht") 0%nat <> 0 -> 0 < w (at_ fl' "gamma") 0%nat * w (at_ fl' "R") 0%nat * w (at_ fl' "T") 0%nat -> w (at_ fl' "rho") 0%nat <> 0 -> w (at_ fl' "area") 0%nat <> 0 ->
  static_ok w fl' (w (gi "ht") 0%nat) ->
  srel (tsub tp me nm static_A fl pi po) (lin (tsub tp me nm static_A fl pi po) w) (lout (tsub tp me nm static_A fl pi po) w).
Proof.
  intros Hp Hx HI HF HO HP HB Hh Hg Hr HM F. destruct (mk_state static_A) as (w' & Eo & Es & Ei & Ec & Hc). apply Hc.
  destruct (static_make static_A w' p ltac:(inp) Eo Es Ei Ec Hp Hx ltac:(intros x Hi; apply HI; cbn in Hi |- *; tauto) HF ltac:(intros x Hi; apply HO; cbn in Hi |- *; tauto)
    ltac:(split; [apply HO; inp|split; [apply HI; inp|exact HP]]) HB) as (B1 & B2 & B3 & B4 & K).
  assert (Kh : w' "ht" 0%nat = w (gi "ht") 0%nat) by (apply Ei; inp).
  intros s Hs. dsub Hs; [exact B1|exact B2| |exact B3|exact B4].
  cbn [ps_area_sub srel]. set (e := impl_env ps_resid_area (lin ps_area_sub w') (lout ps_area_sub w')).
  assert (D : forall a : R, a / 1 = a) by (intros; field).
  assert (E : e (V "gamma") = w (at_ fl' "gamma") 0%nat /\ e (V "R") = w (at_ fl' "R") 0%nat /\ e (V "Ts") = w (at_ fl' "T") 0%nat /\ e (V "ht") = w (gi "ht") 0%nat /\
     e (V "hs") = w (at_ fl' "h") 0%nat /\ e (V "W") = w (at_ fl' "W") 0%nat /\ e (V "rho") = w (at_ fl' "rho") 0%nat /\ e (V "MN") = w (at_ fl' "MN") 0%nat /\
     e (V "V") = w (at_ fl' "V") 0%nat /\ e (V "Vsonic") = w (at_ fl' "Vsonic") 0%nat /\ e (V "area") = w (at_ fl' "area") 0%nat).
  { rewrite <- Kh. rewrite <- !K by inp.
    change (w' "gamma" 0%nat / 1 = w' "gamma" 0%nat /\ w' "R" 0%nat / 1 = w' "R" 0%nat /\ w' "T" 0%nat / 1 = w' "T" 0%nat /\ w' "ht" 0%nat / 1 = w' "ht" 0%nat /\
      w' "h" 0%nat / 1 = w' "h" 0%nat /\ w' "W" 0%nat / 1 = w' "W" 0%nat /\ w' "rho" 0%nat / 1 = w' "rho" 0%nat /\ w' "MN" 0%nat / 1 = w' "MN" 0%nat /\ w' "V" 0%nat / 1 = w' "V" 0%nat /\
      w' "Vsonic" 0%nat / 1 = w' "Vsonic" 0%nat /\ w' "area" 0%nat / 1 = w' "area" 0%nat). rewrite !D. repeat split; reflexivity. }
  destruct E as (E1 & E2 & E3 & E4 & E5 & E6 & E7 & E8 & E9 & E10 & E11).
  assert (G : converged ps_resid_area e (fun _ => 0)); [|exact G].
  apply C26_area_mode_partial; rewrite ?E1, ?E2, ?E3, ?E4, ?E7, ?E11; auto.
  unfold flow_state_ok. rewrite E1, E2, E3, E4, E5, E6, E7, E8, E9, E10, E11. exact F.
Qed.
Lemma mk_Ps p : tp (w (at_ fl' "T") 0%nat) (w (at_ fl' "P") 0%nat / ufac (p_unit me)) (w (gi "composition")) p ->
  (forall x, In x prop_names -> w (at_ fl' x) 0%nat = p x * ufac (prop_unit me x)) ->
  (forall x, In x ["S"; "W"] -> same w (at_ fl' x) (gi x)) -> same w (at_ fl' "composition") (gi "flow.composition") ->
  (forall x, In x ["T"; "h"; "gamma"; "Cp"; "Cv"; "rho"; "R"; "V"; "Vsonic"; "MN"; "area"] -> same w (at_ fl' x) (go x)) -> same w (at_ fl' "P") (gi "Ps") ->
  w (go "base_thermo.S") 0%nat = w (at_ fl' "S") 0%nat ->
  0 < w (at_ fl' "gamma") 0%nat -> 0 < w (at_ fl' "R") 0%nat -> 0 < w (at_ fl' "T") 0%nat -> w (at_ fl' "rho") 0%nat <> 0 -> 0 < w (at_ fl' "V") 0%nat ->
  static_ok w fl' (w (gi "ht") 0%nat) ->
  srel (tsub tp me nm static_Ps fl pi po) (lin (tsub tp me nm static_Ps fl pi po) w) (lout (tsub tp me nm static_Ps fl pi po) w).
Proof.
  intros Hp Hx HI HF HO HP HB Hg HR HT Hr HV F. destruct (mk_state static_Ps) as (w' & Eo & Es & Ei & Ec & Hc). apply Hc.
  destruct (static_make static_Ps w' p ltac:(inp) Eo Es Ei Ec Hp Hx ltac:(intros x Hi; apply HI; cbn in Hi |- *; tauto) HF ltac:(intros x Hi; apply HO; cbn in Hi |- *; tauto)
    ltac:(split; [apply HO; inp|split; [apply HO; inp|exact HP]]) HB) as (B1 & B2 & B3 & B4 & K).
  assert (Kh : w' "ht" 0%nat = w (gi "ht") 0%nat) by (apply Ei; inp).
  intros s Hs. dsub Hs; [exact B1|exact B2| |exact B3|exact B4].
  cbn [ps_calc_sub srel]. set (e := vget (lin ps_calc_sub w')).
  assert (D : forall a : R, a / 1 = a) by (intros; field).
  assert (E : e (V "gamma") = w (at_ fl' "gamma") 0%nat /\ e (V "R") = w (at_ fl' "R") 0%nat /\ e (V "Ts") = w (at_ fl' "T") 0%nat /\ e (V "ht") = w (gi "ht") 0%nat /\
     e (V "hs") = w (at_ fl' "h") 0%nat /\ e (V "W") = w (at_ fl' "W") 0%nat /\ e (V "rho") = w (at_ fl' "rho") 0%nat).
  { rewrite <- Kh. rewrite <- !K by inp.
    change (w' "gamma" 0%nat / 1 = w' "gamma" 0%nat /\ w' "R" 0%nat / 1 = w' "R" 0%nat /\ w' "T" 0%nat / 1 = w' "T" 0%nat /\ w' "ht" 0%nat / 1 = w' "ht" 0%nat /\
      w' "h" 0%nat / 1 = w' "h" 0%nat /\ w' "W" 0%nat / 1 = w' "W" 0%nat /\ w' "rho" 0%nat / 1 = w' "rho" 0%nat). rewrite !D. repeat split; reflexivity. }
  destruct E as (E1 & E2 & E3 & E4 & E5 & E6 & E7). destruct F as (F1 & F2 & F3 & F4 & F5).
  assert (Hp2 : 0 < w (at_ fl' "gamma") 0%nat * w (at_ fl' "R") 0%nat * w (at_ fl' "T") 0%nat) by (repeat apply Rmult_lt_0_compat; assumption).
  assert (Ps : 0 < w (at_ fl' "Vsonic") 0%nat) by nra.
  assert (EV : pv_V e = w (at_ fl' "V") 0%nat).
  { unfold pv_V. rewrite E4, E5. destruct (Rle_dec _ _) as [L|L]; [|exfalso; nra]. replace (2 * (w (gi "ht") 0%nat - w (at_ fl' "h") 0%nat)) with (w (at_ fl' "V") 0%nat ^ 2) by lra. apply sqrt_pow2. lra. }
  assert (EVs : pv_Vsonic e = w (at_ fl' "Vsonic") 0%nat) by (unfold pv_Vsonic; rewrite E1, E2, E3, <- F2; apply sqrt_pow2; lra).
  intros o Ho. fold e. cbn [ps_calc compute]. unfold pv_compute. cbv zeta. rewrite EV, EVs, E6, E7.
  inlist Ho; vsimp.
  - change (w' "MN" 0%nat / 1 = w (at_ fl' "V") 0%nat / w (at_ fl' "Vsonic") 0%nat). rewrite D, K by inp. rewrite F4. field. lra.
  - change (w' "V" 0%nat / 1 = w (at_ fl' "V") 0%nat). rewrite D, K by inp. reflexivity.
  - change (w' "Vsonic" 0%nat / 1 = w (at_ fl' "Vsonic") 0%nat). rewrite D, K by inp. reflexivity.
  - change (w' "area" 0%nat / 1 = w (at_ fl' "W") 0%nat / (w (at_ fl' "rho") 0%nat * w (at_ fl' "V") 0%nat)). rewrite D, K by inp. rewrite <- F5. field. split; lra.
Qed.
End T.
