(* Renaming a converged state: what an off-design element sees when its inputs are connected to the design point. *)
From Coq Require Import FunctionalExtensionality Ascii Lia.
From Verif Require Import Lib_R Spec_Wire Model_Thermo Proofs_Wire Prop_Static Prop_Thermo Model_Elem1 Proofs_Elem Proofs_Elem2 Proofs_Elem3.
Open Scope string_scope. Open Scope list_scope. Open Scope R_scope.

(* the state in which each target variable of l has the value of its source, everything else being unchanged; l lists (source, target) like default_des_od_conns *)
Definition carry (l : list (string * string)) (w : state) : state := fun x => match find (fun p => String.eqb (snd p) x) l with Some p => w (fst p) | None => w x end.
Lemma carry_other l w x : ~ In x (map snd l) -> carry l w x = w x.
Proof.
  intros H. unfold carry. destruct (find _ l) as [p|] eqn:E; [|reflexivity]. apply find_some in E as [E1 E2]. apply String.eqb_eq in E2. exfalso. apply H. rewrite <- E2. apply in_map. exact E1.
Qed.
(* no variable of a subsystem is promoted to y or lives at y *)
Definition avoids1 (p : promo) (y : string) : Prop := match p with PN n => n <> y | PA _ b => b <> y | PG q => prefix q y = false | PS q => suffixb q y = false | PC q => contains q y = false end.
Definition avoids (nm : string) (ps : list promo) (y : string) : Prop := prefix (nm ++ ".") y = false /\ forall p, In p ps -> avoids1 p y.
Lemma avoid_name nm ps y x : avoids nm ps y -> gname nm ps x <> y.
Proof.
  intros [H1 H2] E. unfold gname in E. destruct (pname ps x) as [n|] eqn:P.
  - subst n. clear H1. revert P H2. induction ps as [|p r IH]; cbn [pname]; [discriminate|]. intros P H2.
    assert (Hp := H2 p (or_introl eq_refl)). assert (Hr := fun H => IH H (fun q Hq => H2 q (or_intror Hq))).
    destruct p as [n|n a|q|q|q]; cbn in Hp.
    + destruct (String.eqb x n) eqn:E; [apply String.eqb_eq in E; congruence|auto].
    + destruct (String.eqb x n) eqn:E; [congruence|auto].
    + destruct (prefix q x) eqn:E; [congruence|auto].
    + destruct (suffixb q x) eqn:E; [congruence|auto].
    + destruct (contains q x) eqn:E; [congruence|auto].
  - subst y. rewrite <- sapp_assoc, prefix_app in H1. discriminate.
Qed.
(* a subsystem that touches none of the targets is unaffected *)
Lemma frame s l w : (forall y, In y (map snd l) -> avoids (sname s) (pin s) y /\ avoids (sname s) (pout s) y) -> srel s (lin s w) (lout s w) -> srel s (lin s (carry l w)) (lout s (carry l w)).
Proof.
  intros H. replace (lin s (carry l w)) with (lin s w); [replace (lout s (carry l w)) with (lout s w); [auto|]|]; apply functional_extensionality; intros x; apply functional_extensionality; intros k; unfold lin, lout.
  - rewrite carry_other; [reflexivity|]. intros Hx. apply (avoid_name (sname s) (pout s) _ x (proj2 (H _ Hx)) eq_refl).
  - rewrite carry_other; [reflexivity|]. intros Hx. apply (avoid_name (sname s) (pin s) _ x (proj1 (H _ Hx)) eq_refl).
Qed.
Lemma prefix_spec p s : prefix p s = true -> exists t, s = (p ++ t)%string.
Proof.
  revert s. induction p as [|c p IH]; intros s H; [exists s; reflexivity|]. destruct s as [|d s]; cbn in H; [discriminate|].
  destruct (Ascii.ascii_dec c d) as [->|]; [|discriminate]. destruct (IH s H) as [t ->]. exists t. reflexivity.
Qed.
Lemma contains_app q b t : contains q (b ++ q ++ t) = true.
Proof.
  induction b as [|c b IH].
  - change ((("" ++ q) ++ t)%string) with (q ++ t)%string. cbn [append]. destruct (q ++ t)%string as [|d r] eqn:E; cbn [contains].
    + rewrite <- E. rewrite prefix_app. reflexivity.
    + rewrite <- E. rewrite prefix_app. reflexivity.
  - cbn [append contains]. rewrite IH. apply Bool.orb_true_r.
Qed.
Lemma sapp_nil (s : string) : (s ++ "")%string = s.
Proof. induction s as [|c s IH]; [reflexivity|]. cbn. rewrite IH. reflexivity. Qed.
Lemma no_prefix b q y : contains q y = false -> prefix (b ++ q) y = false.
Proof. intros H. destruct (prefix (b ++ q) y) eqn:E; [|reflexivity]. apply prefix_spec in E as [t ->]. rewrite sapp_assoc, contains_app in H. discriminate. Qed.
Lemma no_name b q y : contains q y = false -> (b ++ q)%string <> y.
Proof. intros H <-. pose proof (contains_app q b "") as C. rewrite sapp_nil in C. congruence. Qed.


Definition same2 (w' : state) (a : string) (w : state) (b : string) : Prop := forall k, w' a k = w b k.
(* the facts a solved static_MN station gives are those the static_A station needs *)
Section Swap.
Variable tp : R -> R -> (nat -> R) -> (string -> R) -> Prop.
Variable me : method.
Hypothesis Htp : tp_local tp.
Variables (nm fl fl' : string) (pi pi' po : list promo) (w w' : state).
Hypothesis Hfl : ok_name fl.
Hypothesis Hsh : shows nm po fl fl'.
Hypothesis Hst : forall x, In x (station_vars static_MN) -> same2 w' (at_ fl' x) w (at_ fl' x).
Hypothesis Hin : forall x, In x ["composition"; "S"; "W"; "ht"; "flow.composition"] -> same2 w' (gname nm pi' x) w (gname nm pi x).
Hypothesis Hout : forall x, In x ["h"; "base_thermo.S"; "gamma"; "Cp"; "Cv"; "rho"; "R"; "T"; "Ps"; "V"; "Vsonic"] -> same2 w' (gname nm po x) w (gname nm po x).
Hypothesis Ha : same2 w' (gname nm pi' "area") w (at_ fl' "area").
Hypothesis HM : same2 w' (gname nm po "MN") w (at_ fl' "MN").
Hypothesis Hgood : good_gas fl' w /\ w (gname nm pi "ht") 0%nat <> 0 /\ / 10 ^ 16 <= w (at_ fl' "MN") 0%nat /\ w (at_ fl' "area") 0%nat <> 0.
Lemma static_swap : srel (tsub tp me nm static_MN fl pi po) (lin (tsub tp me nm static_MN fl pi po) w) (lout (tsub tp me nm static_MN fl pi po) w) ->
  srel (tsub tp me nm static_A fl pi' po) (lin (tsub tp me nm static_A fl pi' po) w') (lout (tsub tp me nm static_A fl pi' po) w').
Proof.
  intros H. pose proof (sub_plain tp me static_MN nm fl fl' pi po w Hfl Hsh H) as Pl.
  destruct (sub_MN tp me nm fl fl' pi po w Hfl Hsh H) as (((p & Hp & Hx) & ES & EW) & EM & Hok). destruct Hgood as (G1 & G2 & G3 & G4).
  assert (Hok' := Hok G1 G2 ltac:(rewrite <- EM; exact G3)).
  assert (F : same w (at_ fl' "composition") (gname nm pi "flow.composition") /\ w (gname nm po "base_thermo.S") 0%nat = w (gname nm pi "S") 0%nat /\ same w (at_ fl' "S") (gname nm pi "S")).
  { clear Hok Hok'. unfold tsub in H. destruct (group_open _ _ _ _ _ H) as (v & Hv & Hi & Ho). 
    assert (Ei : forall x, In x (needed static_MN ++ stray static_MN) -> forall k, v x k = w (gname nm pi x) k) by (intros x Hi1 k; apply Hi; apply C42_inputs; assumption). pose proof (out_vars tp me nm fl fl' po w Hfl Hsh static_MN v Ho) as Eo. destruct Hv as [Hs Hc].
    assert (Hf : forall x, In x (names eng_props) -> same v (at_ fl x) (gname "flow" (flow_pin static_MN) x)) by (apply flow_fact; apply Hs; inp).
    assert (Hl : v "base_thermo.S" 0%nat = v "S" 0%nat).
    { apply balance_fact with (m := static_MN) (u := "cal/(g*degK)"); [reflexivity ..| |]; [apply Hs; inp|apply Hc; inp]. }
    split; [|split].
    - intros k. rewrite <- Eo, <- Ei by inp. apply (Hf "composition"). inp.
    - rewrite <- Ho by (rewrite thermo_outs; apply in_or_app; left; inp). rewrite <- Ei by inp. exact Hl.
    - intros k. rewrite <- Eo, <- Ei by inp. apply (Hf "S"). inp. }
  destruct F as (F1 & F2 & F3).
  assert (Q : forall x, In x (station_vars static_MN) -> w' (at_ fl' x) 0%nat = w (at_ fl' x) 0%nat) by (intros x Hi; apply Hst; exact Hi).
  apply (mk_A tp me Htp nm fl fl' pi' po w' Hfl Hsh p).
  - rewrite !Q by inp. replace (w' (gname nm pi' "composition")) with (w (gname nm pi "composition")) by (apply functional_extensionality; intros k; symmetry; apply Hin; inp). exact Hp.
  - intros x Hi. rewrite Q by (cbn in Hi |- *; tauto). apply Hx. exact Hi.
  - intros x Hi k. rewrite Hst by (cbn in Hi |- *; tauto). cbn in Hi. repeat destruct Hi as [<-|Hi]; try contradiction.
    + rewrite Hin by inp. apply F3.
    + rewrite Hin by inp. apply EW.
    + symmetry. apply Ha.
  - intros k. rewrite Hst, Hin by inp. apply F1.
  - intros x Hi k. rewrite Hst by (cbn in Hi |- *; tauto). cbn in Hi. repeat destruct Hi as [<-|Hi]; try contradiction; first [symmetry; apply HM | rewrite Hout by inp; symmetry; apply Pl; [inp|reflexivity]].
  - intros k. rewrite Hst, Hout by inp. symmetry. apply (Pl "Ps"); [inp|reflexivity].
  - rewrite Hout, Q by inp. rewrite F2. symmetry. apply ES.
  - rewrite Hin by inp. exact G2.
  - rewrite !Q by inp. apply G1.
  - rewrite !Q by inp. apply G1.
  - rewrite !Q by inp. apply G4.
  - rewrite Hin by inp. unfold static_ok. rewrite !Q by inp. exact Hok'.
Qed.
End Swap.
(* likewise for a station given by its static pressure *)
Section SwapPs.
Variable tp : R -> R -> (nat -> R) -> (string -> R) -> Prop.
Variable me : method.
Hypothesis Htp : tp_local tp.
Variables (nm fl fl' : string) (pi pi' po po' : list promo) (w w' : state).
Hypothesis Hfl : ok_name fl.
Hypothesis Hsh : shows nm po fl fl'.
Hypothesis Hsh' : shows nm po' fl fl'.
Hypothesis Hst : forall x, In x (station_vars static_Ps) -> same2 w' (at_ fl' x) w (at_ fl' x).
Hypothesis Hin : forall x, In x ["composition"; "S"; "W"; "ht"; "flow.composition"] -> same2 w' (gname nm pi' x) w (gname nm pi x).
Hypothesis Hout : forall x, In x ["h"; "base_thermo.S"; "gamma"; "Cp"; "Cv"; "rho"; "R"; "T"; "MN"; "V"; "Vsonic"] -> same2 w' (gname nm po' x) w (gname nm po x).
Hypothesis Ha : same2 w' (gname nm pi' "area") w (at_ fl' "area").
Hypothesis HP : same2 w' (gname nm po' "Ps") w (at_ fl' "P").
Hypothesis Hgood : 0 < w (at_ fl' "gamma") 0%nat /\ 0 < w (at_ fl' "R") 0%nat /\ 0 < w (at_ fl' "T") 0%nat /\ w (at_ fl' "rho") 0%nat <> 0 /\
  w (at_ fl' "h") 0%nat < w (gname nm pi "ht") 0%nat /\ w (gname nm pi "ht") 0%nat <> 0 /\ w (at_ fl' "area") 0%nat <> 0.
Lemma static_swap_Ps : srel (tsub tp me nm static_Ps fl pi po) (lin (tsub tp me nm static_Ps fl pi po) w) (lout (tsub tp me nm static_Ps fl pi po) w) ->
  srel (tsub tp me nm static_A fl pi' po') (lin (tsub tp me nm static_A fl pi' po') w') (lout (tsub tp me nm static_A fl pi' po') w').
Proof.
  intros H. pose proof (sub_plain tp me static_Ps nm fl fl' pi po w Hfl Hsh H) as Pl.
  destruct (sub_Ps tp me nm fl fl' pi po w Hfl Hsh H) as (((p & Hp & Hx) & ES & EW) & EP & Hok). destruct Hgood as (G1 & G2 & G3 & G4 & G5 & G6 & G7).
  assert (Hok' := Hok G1 G2 G3 G4 G5).
  assert (F : same w (at_ fl' "composition") (gname nm pi "flow.composition") /\ w (gname nm po "base_thermo.S") 0%nat = w (gname nm pi "S") 0%nat /\ same w (at_ fl' "S") (gname nm pi "S")).
  { clear Hok Hok'. unfold tsub in H. destruct (group_open _ _ _ _ _ H) as (v & Hv & Hi & Ho). 
    assert (Ei : forall x, In x (needed static_Ps ++ stray static_Ps) -> forall k, v x k = w (gname nm pi x) k) by (intros x Hi1 k; apply Hi; apply C42_inputs; assumption). pose proof (out_vars tp me nm fl fl' po w Hfl Hsh static_Ps v Ho) as Eo. destruct Hv as [Hs Hc].
    assert (Hf : forall x, In x (names eng_props) -> same v (at_ fl x) (gname "flow" (flow_pin static_Ps) x)) by (apply flow_fact; apply Hs; inp).
    assert (Hl : v "base_thermo.S" 0%nat = v "S" 0%nat).
    { apply balance_fact with (m := static_Ps) (u := "cal/(g*degK)"); [reflexivity ..| |]; [apply Hs; inp|apply Hc; inp]. }
    split; [|split].
    - intros k. rewrite <- Eo, <- Ei by inp. apply (Hf "composition"). inp.
    - rewrite <- Ho by (rewrite thermo_outs; apply in_or_app; left; inp). rewrite <- Ei by inp. exact Hl.
    - intros k. rewrite <- Eo, <- Ei by inp. apply (Hf "S"). inp. }
  destruct F as (F1 & F2 & F3).
  assert (Q : forall x, In x (station_vars static_Ps) -> w' (at_ fl' x) 0%nat = w (at_ fl' x) 0%nat) by (intros x Hi; apply Hst; exact Hi).
  apply (mk_A tp me Htp nm fl fl' pi' po' w' Hfl Hsh' p).
  - rewrite !Q by inp. replace (w' (gname nm pi' "composition")) with (w (gname nm pi "composition")) by (apply functional_extensionality; intros k; symmetry; apply Hin; inp). exact Hp.
  - intros x Hi. rewrite Q by (cbn in Hi |- *; tauto). apply Hx. exact Hi.
  - intros x Hi k. rewrite Hst by (cbn in Hi |- *; tauto). cbn in Hi. repeat destruct Hi as [<-|Hi]; try contradiction.
    + rewrite Hin by inp. apply F3.
    + rewrite Hin by inp. apply EW.
    + symmetry. apply Ha.
  - intros k. rewrite Hst, Hin by inp. apply F1.
  - intros x Hi k. rewrite Hst by (cbn in Hi |- *; tauto). cbn in Hi. repeat destruct Hi as [<-|Hi]; try contradiction; (rewrite Hout by inp; symmetry; apply Pl; [inp|reflexivity]).
  - intros k. rewrite Hst by inp. symmetry. apply HP.
  - rewrite Hout, Q by inp. rewrite F2. symmetry. apply ES.
  - rewrite Hin by inp. exact G6.
  - rewrite !Q by inp. apply Rmult_lt_0_compat; [apply Rmult_lt_0_compat|]; assumption.
  - rewrite !Q by inp. exact G4.
  - rewrite !Q by inp. exact G7.
  - rewrite Hin by inp. unfold static_ok. rewrite !Q by inp. exact Hok'.
Qed.
End SwapPs.

(* names made from a user's name *)
Lemma dot_split b c t t' : contains "." b = false -> contains "." c = false -> (b ++ "." ++ t = c ++ "." ++ t')%string -> b = c.
Proof.
  revert c. induction b as [|x b IH]; intros c Hb Hc E.
  - destruct c as [|y c]; [reflexivity|]. cbn in E. injection E as <- _. cbn in Hc. destruct c; discriminate.
  - destruct c as [|y c].
    + cbn in E. injection E as -> _. cbn in Hb. destruct b; discriminate.
    + cbn in E. injection E as -> E. f_equal. apply (IH c); [| |exact E]; cbn [contains] in *; apply Bool.orb_false_iff in Hb, Hc; tauto.
Qed.
Lemma no_dotted b c t : contains "." b = false -> contains "." c = false -> b <> c -> prefix (b ++ ".") (c ++ "." ++ t) = false.
Proof. intros Hb Hc N. destruct (prefix (b ++ ".") (c ++ "." ++ t)) eqn:E; [|reflexivity]. apply prefix_spec in E as [t' E]. rewrite sapp_assoc in E. symmetry in E. apply dot_split in E; auto. contradiction. Qed.
Lemma avoids_app nm p q y : avoids nm p y -> avoids nm q y -> avoids nm (p ++ q) y.
Proof. intros [H1 H2] [_ H3]. split; [exact H1|]. intros x Hx. apply in_app_iff in Hx as [Hx|Hx]; auto. Qed.
(* a group none of whose variables is promoted to, or lives at, a target *)
Lemma frame_group nm g pi po l w : forallb (fun y => negb (memb y (map (gname nm pi) (g_ins g) ++ map (gname nm po) (g_outs g)))) (map snd l) = true ->
  srel (group_sub nm g pi po) (lin (group_sub nm g pi po) w) (lout (group_sub nm g pi po) w) ->
  srel (group_sub nm g pi po) (lin (group_sub nm g pi po) (carry l w)) (lout (group_sub nm g pi po) (carry l w)).
Proof.
  intros F H. rewrite forallb_forall in F. destruct (group_open _ _ _ _ _ H) as (v & Hv & Hi & Ho). cbn [group_sub srel]. exists v. split; [exact Hv|].
  assert (N : forall y, In y (map (gname nm pi) (g_ins g) ++ map (gname nm po) (g_outs g)) -> carry l w y = w y).
  { intros y Hy. apply carry_other. intros Hl. apply F in Hl. apply Bool.negb_true_iff in Hl. apply memb_not in Hl. contradiction. }
  split; intros x k Hx; unfold lin, lout, group_sub; cbn [sname pin pout sins souts]; rewrite unit_plain, ufac_none, N by (apply in_or_app; first [left; apply in_map; exact Hx | right; apply in_map; exact Hx]).
  - rewrite (Hi x k Hx). field.
  - rewrite (Ho x k Hx). field.
Qed.
