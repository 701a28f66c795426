(* Claims C17-C20 and C49: mixing of streams and reactants (ThermoAdd), CEA and tabular methods. *)
From Coq Require Import Permutation.
From Verif Require Import Lib_R Lib_Py Spec_Mix Model_ThermoAdd Data_Thermo Proofs_Species Proofs_ThermoAdd.
Open Scope string_scope. Open Scope list_scope. Open Scope R_scope.

(* atomic weight of an element in the data set; composition of a reactant of the data set *)
Definition weight (sp : spec_data) (x : string) : R := dgetd (element_wts sp) x 0.
Definition reactant (sp : spec_data) (r : string) : dict R := match dget (reactants sp) r with Some d => d | None => [] end.
(* python dictionaries have no duplicate keys *)
Definition wf_opts (o : cea_opts) : Prop :=
  (forall d, o_inflow o = Some d -> dwf d) /\ (forall r d, dget (reactants (o_spec o)) r = Some d -> dwf d) /\
  match o_mix o with Reactants _ => True | Flows l => forall d, In d l -> dwf d end.

Lemma setup_inv o a : cea_setup o = Ok a -> wf_opts o ->
  exists d_in m, o_inflow o = Some d_in /\ cea_port_data o = Ok m /\ ad_inflow a = sorted (dkeys d_in) /\ ad_mixed a = sorted (dkeys m) /\
   ad_names a = o_names o /\ NoDup (o_names o) /\ NoDup (ad_mixed a) /\ (forall x, In x (ad_inflow a) -> In x (ad_mixed a)) /\
   (forall j, (j < List.length (ad_mixed a))%nat -> wt (ad_wts a) j = weight (o_spec o) (nth j (ad_mixed a) "")) /\
   match o_mix o with
   | Reactants l => ad_reactants a = Some (map (fun r => (r, fuel_1kg (o_spec o) (ad_mixed a) (reactant (o_spec o) r))) l) /\
       (forall r x, In r l -> In x (dkeys (reactant (o_spec o) r)) -> In x (ad_mixed a)) /\ (forall r, In r l -> exists d, dget (reactants (o_spec o)) r = Some d)
   | Flows l => ad_reactants a = None /\ map fst (combine (o_names o) l) = o_names o /\
       forall nm d, In (nm, d) (combine (o_names o) l) -> (forall x, In x (sorted (dkeys d)) -> In x (ad_mixed a)) /\
         exists wts, dget (ad_flows a) nm = Some (sorted (dkeys d), wts) /\ forall i, (i < List.length (sorted (dkeys d)))%nat -> wt wts i = weight (o_spec o) (nth i (sorted (dkeys d)) "")
   end.
Proof.
  unfold cea_setup. cbv zeta. intros H WF. destruct WF as [W1 [W2 W3]].
  destruct (cea_port_data o) as [m|] eqn:PD; [|discriminate].
  destruct (o_inflow o) as [d_in|] eqn:IN; [|discriminate].
  destruct (mk_properties (o_spec o) (Some d_in)) as [p_in|] eqn:P1; [|discriminate].
  destruct (mk_properties (o_spec o) (Some m)) as [p_mix|] eqn:P2; [|discriminate].
  destruct (mk_elems _ _ _ P1) as [E1 _]. destruct (mk_elems _ _ _ P2) as [E2 [L2 N2]].
  exists d_in, m. split; auto. split; auto.
  unfold cea_port_data in PD. rewrite IN in PD. specialize (W1 d_in eq_refl).
  destruct (o_mix o) as [l|l] eqn:MX.
  - destruct (nodupb (o_names o)) eqn:ND; [|discriminate]. destruct (get_all _ _) as [ds|] eqn:G; [|discriminate]. injection H as <-.
    cbn [ad_inflow ad_mixed ad_names ad_wts ad_reactants ad_flows].
    destruct (add_reactants_spec _ _ _ _ PD) as [A1 [A2 A3]]. assert (WM := A3 W1).
    rewrite E1, E2. split; auto. split; auto. split; auto. split; [apply nodupb_iff; auto|]. split; [apply sorted_nodup; auto|].
    split. { intros x. rewrite !in_sorted, A2. auto. }
    split. { intros j Hj. unfold wt, weight. rewrite N2 by (rewrite E2; auto). rewrite E2. auto. }
    split; [|split].
    + f_equal. destruct (get_all_spec _ _ _ G) as [LG NG]. clear - NG LG.
      revert ds LG NG. induction l as [|r l IH]; intros [|d ds] LG NG; try discriminate LG; auto. cbn [combine map fst snd].
      assert (K := NG O r eq_refl). cbn [nth_error] in K. f_equal.
      * unfold reactant. rewrite <- K. reflexivity.
      * apply IH; [injection LG; auto|]. intros i k Hk. apply (NG (S i) k Hk).
    + intros r x Hr Hx. rewrite in_sorted, A2. right. destruct (A1 r Hr) as [d Hd]. exists r, d. unfold reactant in Hx. rewrite Hd in Hx. auto.
    + auto.
  - destruct (setup_flows _ _ _) as [fl|] eqn:SF; [|discriminate]. destruct (nodupb (o_names o)) eqn:ND; [|discriminate].
    destruct (all_some _ _) eqn:AS; [|discriminate]. injection H as <-. injection PD as <-.
    cbn [ad_inflow ad_mixed ad_names ad_wts ad_reactants ad_flows].
    destruct (fold_dupdate_spec l d_in) as [A2 A3]. assert (WM := A3 W1). apply nodupb_iff in ND.
    assert (NC := nodup_map_fst_combine (o_names o) l ND). destruct (setup_flows_spec _ _ _ _ SF NC) as [B1 B2].
    rewrite E1, E2. split; auto. split; auto. split; auto. split; auto. split; [apply sorted_nodup; auto|].
    split. { intros x. rewrite !in_sorted, A2. auto. }
    split. { intros j Hj. unfold wt, weight. rewrite N2 by (rewrite E2; auto). rewrite E2. auto. }
    split; auto. split.
    + apply map_fst_combine; auto. intros x Hx. destruct (all_some_spec _ _ AS x Hx) as [c Hc].
      destruct (in_dec string_dec x (map fst (combine (o_names o) l))) as [K|K]; auto. rewrite B1 in Hc by auto. discriminate.
    + intros nm d Hnd. split.
      * intros x. rewrite !in_sorted, A2. intros Hx. right. exists d. split; auto. eapply in_combine_r; eauto.
      * destruct (B2 nm d Hnd) as [p [Hp Hd]]. destruct (mk_elems _ _ _ Hp) as [E3 [L3 N3]]. exists (p_wts p). rewrite Hd, E3. split; auto.
        intros i Hi. unfold wt, weight. rewrite N3 by (rewrite E3; auto). rewrite E3. auto.
Qed.

(* ---------- C17 / C18, reactant mode ---------- *)
(* d_in: inflow composition dictionary; rs: reactants, one per mix name; m: the dictionary announced on the output port.
   The composition vectors are ordered by sorted element name. *)
Lemma react_out o a d_in rs m : cea_setup o = Ok a -> wf_opts o -> o_inflow o = Some d_in -> o_mix o = Reactants rs -> cea_port_data o = Ok m ->
  let w := weight (o_spec o) in let names := o_names o in List.length names = List.length rs ->
  forall e old, let out := cea_compute a e old in let W := e (V "Fl_I:stat:W") in let Wm := fun name => W * e (B name "ratio") in
  let c_in := fun i => e (I "Fl_I:tot:composition" i) in let c_out := fun j => out (I "composition_out" j) in
  (forall x, In x (dkeys m) -> w x <> 0) -> mass w (sorted (dkeys d_in)) c_in <> 0 -> (forall r, In r rs -> dict_mass w (reactant (o_spec o) r) <> 0) ->
  W + lsum Wm names <> 0 ->
  out (V "Wout") = W + lsum Wm names /\ (forall name, In name names -> out (B name "W") = Wm name) /\
  mass w (sorted (dkeys m)) c_out = 1 /\
  (forall x, out (V "Wout") * mass_fraction w (sorted (dkeys m)) c_out x =
     W * mass_fraction w (sorted (dkeys d_in)) c_in x + lsum (fun nr => Wm (fst nr) * dict_fraction w (reactant (o_spec o) (snd nr)) x) (combine names rs)) /\
  out (V "Wout") * out (V "mass_avg_h") = W * e (V "Fl_I:tot:h") + lsum (fun name => Wm name * e (B name "h")) names.
Proof.
  intros SU WF IN MX PD w names LEN e old out W Wm c_in c_o Hw Hm Hr HW.
  destruct (setup_inv o a SU WF) as [d_in' [m' [IN' [PD' [AI [AM [AN [NN [NM [SUB [WT X]]]]]]]]]]].
  rewrite IN in IN'. injection IN' as <-. rewrite PD in PD'. injection PD' as <-. rewrite MX in X. destruct X as [R1 [R2 R3]].
  destruct WF as [_ [WFR _]].
  set (rs' := map (fun r => (r, fuel_1kg (o_spec o) (ad_mixed a) (reactant (o_spec o) r))) rs) in *.
  set (fr := fun r => dict_fraction w (reactant (o_spec o) r)).
  assert (RW : forall r, In r rs -> dwf (reactant (o_spec o) r)).
  { intros r H. destruct (R3 r H) as [d Hd]. unfold reactant. rewrite Hd. eauto. }
  assert (Q : forall r l, In (r, l) rs' -> In r rs /\ l = fuel_1kg (o_spec o) (ad_mixed a) (reactant (o_spec o) r)).
  { intros r l H. unfold rs' in H. apply in_map_iff in H. destruct H as [r' [E H]]. injection E as <- <-. auto. }
  assert (F2 : forall r l, In (r, l) rs' -> forall j, (j < List.length (ad_mixed a))%nat -> wt l j = fr r (nth j (ad_mixed a) "")).
  { intros r l H j Hj. destruct (Q _ _ H) as [H1 ->]. unfold fr. apply fuel_nth; auto. intros x Hx. eapply R2; eauto. }
  assert (F3 : forall r l, In (r, l) rs' -> lsum (fr r) (ad_mixed a) = 1).
  { intros r l H. destruct (Q _ _ H) as [H1 ->]. unfold fr, dict_fraction. apply fraction_sum; [auto|intros x Hx; eapply R2; eauto|apply Hr; auto]. }
  assert (F4 : forall r l x, In (r, l) rs' -> ~ In x (ad_mixed a) -> fr r x = 0).
  { intros r l x H Hx. destruct (Q _ _ H) as [H1 ->]. unfold fr, dict_fraction, mass_fraction. rewrite amount_miss; [unfold Rdiv; ring|]. intros K. apply Hx. eauto. }
  destruct (react_mix a w NM SUB WT rs' fr R1 F2 e old) as [M1 [M2 [M3 [M4 M5]]]].
  set (c := cea_mix a e old) in *. rewrite AN in *. fold names in M1, M2, M3, M4. fold W in M1, M2, M3, M4.
  (* sums over zip(names, reactants) *)
  assert (Z1 : forall f : string -> R, lsum (fun nr => f (fst nr)) (combine names rs') = lsum f names).
  { intros f. assert (LR : List.length names = List.length rs') by (unfold rs'; rewrite map_length; auto). clear - LR. clearbody rs'. revert rs' LR.
    induction names as [|x l IH]; intros [|y t] L; try discriminate L; auto. cbn [combine lsum fst]. rewrite IH; auto. }
  assert (Z2 : forall f : string -> string -> R, lsum (fun nr => f (fst nr) (fst (snd nr))) (combine names rs') = lsum (fun nr => f (fst nr) (snd nr)) (combine names rs)).
  { intros f. unfold rs'. clear. revert rs. induction names as [|x l IH]; intros [|y t]; auto. cbn [map combine lsum fst snd]. rewrite IH; auto. }
  assert (CW : c_W c = W + lsum Wm names) by (rewrite M3; f_equal; exact (Z1 Wm)).
  assert (OW : out (V "Wout") = W + lsum Wm names) by (unfold out, cea_compute; cbv zeta; rewrite upd_eq; exact CW).
  set (G := fun x => W * mass_fraction w (ad_inflow a) c_in x + lsum (fun nr => Wm (fst nr) * fr (fst (snd nr)) x) (combine names rs')).
  assert (SG : lsum G (ad_mixed a) = c_W c).
  { unfold G. rewrite lsum_plus, lsum_scal, fraction_sum; auto. 2: rewrite AI; auto. rewrite lsum_swap, CW, Rmult_1_r. f_equal.
    rewrite <- (Z1 Wm). apply lsum_ext. intros nr Hnr. rewrite lsum_scal, (F3 (fst (snd nr)) (snd (snd nr))); [ring|].
    destruct nr as [nm [r l]]. apply in_combine_r in Hnr. auto. }
  assert (G0 : forall x, ~ In x (ad_mixed a) -> G x = 0).
  { intros x Hx. unfold G. rewrite lsum_0.
    - unfold mass_fraction. rewrite amount_miss; [unfold Rdiv; ring|]. auto.
    - intros nr Hnr. rewrite (F4 (fst (snd nr)) (snd (snd nr))); [ring| |auto]. destruct nr as [nm [r l]]. apply in_combine_r in Hnr. auto. }
  assert (WNZ : forall x, In x (ad_mixed a) -> w x <> 0). { intros x. rewrite AM, in_sorted. apply Hw. }
  assert (CNZ : c_W c <> 0) by (rewrite CW; auto).
  destruct (finish a w NM WT WNZ c G) as [T1 T2]; auto.
  split; [exact OW|]. split; [|split; [|split]].
  - intros nm Hnm. unfold out, cea_compute. cbv zeta. rewrite !upd_neq by discriminate. rewrite upd_vec_other by discriminate. fold c.
    assert (K : exists x, In (nm, x) (combine names rs')).
    { assert (LR : List.length names = List.length rs') by (unfold rs'; rewrite map_length; auto). clear - Hnm LR. clearbody rs'. revert rs' LR.
      induction names as [|x l IH]; intros [|y t] L; try discriminate L; [destruct Hnm|]. destruct Hnm as [->|Hnm]; [exists y; simpl; auto|].
      destruct (IH Hnm t) as [z Hz]; [auto|]. exists z. simpl. auto. }
    destruct K as [x Hx]. exact (M4 (nm, x) NN Hx).
  - rewrite <- AM. exact T1.
  - intros x. rewrite <- AM, <- AI. etransitivity; [exact (T2 x)|]. unfold G. f_equal. apply (Z2 (fun nm r => Wm nm * fr r x)).
  - rewrite OW. unfold out, cea_compute. cbv zeta. fold c. rewrite upd_neq by discriminate. rewrite upd_eq, CW, M2.
    rewrite <- (Z1 (fun name => Wm name * e (B name "h"))). rewrite (lsum_ext _ (fun nr => Wm (fst nr) * e (B (fst nr) "h")) (combine names rs')).
    + field. auto.
    + intros nr _. unfold Wm. ring.
Qed.

Theorem C17_reactants (o : cea_opts) (a : cea_adder) (d_in : dict R) (rs : list string) (m : dict R) :
  cea_setup o = Ok a -> wf_opts o -> o_inflow o = Some d_in -> o_mix o = Reactants rs -> cea_port_data o = Ok m ->
  let w := weight (o_spec o) in let names := o_names o in List.length names = List.length rs ->
  forall e old, let out := cea_compute a e old in let W := e (V "Fl_I:stat:W") in let Wm := fun name => W * e (B name "ratio") in
  let c_in := fun i => e (I "Fl_I:tot:composition" i) in let c_out := fun j => out (I "composition_out" j) in
  (forall x, In x (dkeys m) -> w x <> 0) -> mass w (sorted (dkeys d_in)) c_in <> 0 -> (forall r, In r rs -> dict_mass w (reactant (o_spec o) r) <> 0) ->
  W + lsum Wm names <> 0 ->
  out (V "Wout") = W + lsum Wm names /\ (forall name, In name names -> out (B name "W") = Wm name) /\
  mass w (sorted (dkeys m)) c_out = 1 /\
  (forall x, out (V "Wout") * mass_fraction w (sorted (dkeys m)) c_out x =
     W * mass_fraction w (sorted (dkeys d_in)) c_in x + lsum (fun nr => Wm (fst nr) * dict_fraction w (reactant (o_spec o) (snd nr)) x) (combine names rs)).
Proof.
  intros SU WF IN MX PD w names LEN e old out W Wm c_in c_o Hw Hm Hr HW.
  destruct (react_out o a d_in rs m SU WF IN MX PD LEN e old Hw Hm Hr HW) as [A [B [C [D E]]]]. auto.
Qed.
Theorem C18_reactants (o : cea_opts) (a : cea_adder) (rs : list string) :
  cea_setup o = Ok a -> o_mix o = Reactants rs ->
  let names := o_names o in List.length names = List.length rs ->
  forall e old, let out := cea_compute a e old in let W := e (V "Fl_I:stat:W") in
  out (V "Wout") <> 0 ->
  (forall name, In name names -> out (B name "W") = W * e (B name "ratio")) /\
  out (V "Wout") = W + lsum (fun name => out (B name "W")) names /\
  out (V "Wout") * out (V "mass_avg_h") = W * e (V "Fl_I:tot:h") + lsum (fun name => out (B name "W") * e (B name "h")) names.
Proof.
  intros SU MX names LEN e old out W HW.
  assert (AR : exists rs', ad_reactants a = Some rs' /\ List.length rs' = List.length rs /\ ad_names a = names /\ NoDup names).
  { revert SU. unfold cea_setup. cbv zeta. destruct (cea_port_data o); [|discriminate]. destruct (mk_properties (o_spec o) (o_inflow o)); [|discriminate].
    destruct (mk_properties (o_spec o) (Some a0)); [|discriminate]. rewrite MX. destruct (nodupb (o_names o)) eqn:ND; [|discriminate].
    destruct (get_all _ _) as [ds|] eqn:G; [|discriminate]. injection 1 as <-. eexists. split; [reflexivity|]. split; [|split; [reflexivity|apply nodupb_iff; auto]].
    rewrite map_length, combine_length. destruct (get_all_spec _ _ _ G) as [L _]. lia. }
  destruct AR as [rs' [AR [LR [AN NN]]]]. rewrite <- LR in LEN. clear LR.
  assert (Z1 : forall f : string -> R, lsum (fun nr : string * (string * list R) => f (fst nr)) (combine names rs') = lsum f names).
  { intros f. clear - LEN. revert rs' LEN. induction names as [|x l IH]; intros [|y t] L; try discriminate L; auto. cbn [combine lsum fst]. rewrite IH; auto. }
  set (c := cea_mix a e old).
  set (Wm := fun name => W * e (B name "ratio")).
  assert (CW : c_W c = W + lsum Wm names).
  { unfold c, cea_mix. rewrite AR, AN, <- (Z1 Wm). etransitivity; [apply (fold_acc (cea_react_step e) c_W _ _ (fun nr => Wm (fst nr))); reflexivity|reflexivity]. }
  assert (CH : c_h c = e (V "Fl_I:tot:h") * W + lsum (fun nm => e (B nm "h") * Wm nm) names).
  { unfold c, cea_mix. rewrite AR, AN, <- (Z1 (fun nm => e (B nm "h") * Wm nm)). etransitivity; [apply (fold_acc (cea_react_step e) c_h _ _ (fun nr => e (B (fst nr) "h") * Wm (fst nr))); reflexivity|reflexivity]. }
  assert (OB : forall name, In name names -> out (B name "W") = Wm name).
  { intros nm Hnm. unfold out, cea_compute. cbv zeta. rewrite !upd_neq by discriminate. rewrite upd_vec_other by discriminate.
    unfold cea_mix. rewrite AR, AN. generalize (cea_start a e old). clear - LEN Hnm NN. revert rs' LEN.
    induction names as [|x l IH]; intros [|y t] L c0; try discriminate L; [destruct Hnm|]. cbn [combine fold_left]. inversion NN; subst.
    destruct (in_dec string_dec nm l) as [Hl|Hl].
    - apply IH; auto.
    - destruct Hnm as [->|Hnm]; [|contradiction]. rewrite (fold_skip (cea_react_step e) (fun c => c_out c (B nm "W"))).
      + unfold cea_react_step. cbv zeta. cbn [c_out fst]. apply upd_eq.
      + intros [b1 b2] c' Hb. unfold cea_react_step. cbv zeta. cbn [c_out fst]. apply upd_neq. intros E. injection E as ->. apply in_combine_l in Hb. contradiction. }
  assert (OW : out (V "Wout") = c_W c) by (unfold out, cea_compute; cbv zeta; rewrite upd_eq; reflexivity).
  split; [exact OB|]. rewrite OW in *. split.
  - rewrite CW. f_equal. apply lsum_ext. intros nm H. rewrite OB; auto.
  - unfold out at 1. unfold cea_compute. cbv zeta. fold c. rewrite upd_neq by discriminate. rewrite upd_eq, CH. rewrite (lsum_ext (fun name => out (B name "W") * e (B name "h")) (fun nm => e (B nm "h") * Wm nm)).
    + field. auto.
    + intros nm H. rewrite OB by auto. ring.
Qed.

(* ---------- C17 / C18, flow mode ---------- *)
Lemma flow_out o a d_in ds m : cea_setup o = Ok a -> wf_opts o -> o_inflow o = Some d_in -> o_mix o = Flows ds -> cea_port_data o = Ok m ->
  let w := weight (o_spec o) in let names := o_names o in
  forall e old, let out := cea_compute a e old in let W := e (V "Fl_I:stat:W") in
  let c_in := fun i => e (I "Fl_I:tot:composition" i) in let c_mix := fun name i => e (I (name ++ ":composition") i) in
  let c_out := fun j => out (I "composition_out" j) in
  (forall x, In x (dkeys m) -> w x <> 0) -> mass w (sorted (dkeys d_in)) c_in <> 0 ->
  (forall nd, In nd (combine names ds) -> mass w (sorted (dkeys (snd nd))) (c_mix (fst nd)) <> 0) ->
  W + lsum (fun name => e (B name "W")) names <> 0 ->
  out (V "Wout") = W + lsum (fun name => e (B name "W")) names /\
  mass w (sorted (dkeys m)) c_out = 1 /\
  (forall x, out (V "Wout") * mass_fraction w (sorted (dkeys m)) c_out x =
     W * mass_fraction w (sorted (dkeys d_in)) c_in x +
     lsum (fun nd => e (B (fst nd) "W") * mass_fraction w (sorted (dkeys (snd nd))) (c_mix (fst nd)) x) (combine names ds)) /\
  out (V "Wout") * out (V "mass_avg_h") = W * e (V "Fl_I:tot:h") + lsum (fun name => e (B name "W") * e (B name "h")) names.
Proof.
  intros SU WF IN MX PD w names e old out W c_in c_mix c_o Hw Hm Hr HW.
  destruct (setup_inv o a SU WF) as [d_in' [m' [IN' [PD' [AI [AM [AN [NN [NM [SUB [WT X]]]]]]]]]]].
  rewrite IN in IN'. injection IN' as <-. rewrite PD in PD'. injection PD' as <-. rewrite MX in X. destruct X as [R1 [R2 R3]].
  fold names in AN, R2, R3, NN.
  set (dd := fun nm => match dget (combine names ds) nm with Some d => d | None => [] end).
  set (nd := fun nm => sorted (dkeys (dd nm))).
  assert (WZ : dwf (combine names ds)) by (unfold dwf, dkeys; rewrite R2; auto).
  assert (DD : forall p, In p (combine names ds) -> dd (fst p) = snd p).
  { intros [nm d] H. unfold dd. rewrite (In_dget _ nm d); auto. }
  assert (IC : forall nm, In nm names -> In (nm, dd nm) (combine names ds)).
  { intros nm H. rewrite <- R2 in H. apply in_map_iff in H. destruct H as [[nm' d] [<- H]]. assert (K := DD (nm', d) H). cbn [fst snd] in *. rewrite K. auto. }
  assert (F2 : forall nm, In nm (ad_names a) -> exists wts, dget (ad_flows a) nm = Some (nd nm, wts) /\
       (forall i, (i < List.length (nd nm))%nat -> wt wts i = w (nth i (nd nm) ""))).
  { intros nm H. rewrite AN in H. apply (R3 nm (dd nm)); auto. }
  assert (F3 : forall nm x, In nm (ad_names a) -> In x (nd nm) -> In x (ad_mixed a)).
  { intros nm x H. rewrite AN in H. apply (R3 nm (dd nm)); auto. }
  destruct (flow_mix a w NM SUB WT nd R1 F2 F3 e old) as [M1 [M2 M3]].
  set (c := cea_mix a e old) in *. rewrite AN in *. fold W in M1, M2, M3.
  assert (Z2 : forall f : string -> dict R -> R, lsum (fun nm => f nm (dd nm)) names = lsum (fun p => f (fst p) (snd p)) (combine names ds)).
  { intros f. rewrite <- R2 at 1. rewrite lsum_map. apply lsum_ext. intros p Hp. rewrite DD; auto. }
  set (G := fun x => W * mass_fraction w (ad_inflow a) c_in x + lsum (fun nm => e (B nm "W") * mass_fraction w (nd nm) (c_mix nm) x) names).
  assert (SG : lsum G (ad_mixed a) = c_W c).
  { unfold G. rewrite lsum_plus, lsum_scal, fraction_sum; auto. 2: rewrite AI; auto. rewrite lsum_swap, M3, Rmult_1_r. f_equal.
    apply lsum_ext. intros nm Hnm. rewrite lsum_scal, fraction_sum; auto; [ring| |].
    - intros x. apply F3; auto.
    - apply (Hr (nm, dd nm)). apply IC; auto. }
  assert (G0 : forall x, ~ In x (ad_mixed a) -> G x = 0).
  { intros x Hx. unfold G. rewrite lsum_0.
    - unfold mass_fraction. rewrite amount_miss; [unfold Rdiv; ring|]. auto.
    - intros nm Hnm. unfold mass_fraction. rewrite amount_miss; [unfold Rdiv; ring|]. intros K. apply Hx. eapply F3; eauto. }
  assert (WNZ : forall x, In x (ad_mixed a) -> w x <> 0). { intros x. rewrite AM, in_sorted. apply Hw. }
  assert (CNZ : c_W c <> 0) by (rewrite M3; auto).
  assert (OW : out (V "Wout") = W + lsum (fun name => e (B name "W")) names) by (unfold out, cea_compute; cbv zeta; rewrite upd_eq; exact M3).
  destruct (finish a w NM WT WNZ c G) as [T1 T2]; auto.
  split; [exact OW|]. split; [|split].
  - rewrite <- AM. exact T1.
  - intros x. rewrite <- AM, <- AI. etransitivity; [exact (T2 x)|]. unfold G. f_equal.
    apply (Z2 (fun nm d => e (B nm "W") * mass_fraction w (sorted (dkeys d)) (c_mix nm) x)).
  - rewrite OW. unfold out, cea_compute. cbv zeta. fold c. rewrite upd_neq by discriminate. rewrite upd_eq, M3, M2.
    rewrite (lsum_ext (fun nm => e (B nm "h") * e (B nm "W")) (fun name => e (B name "W") * e (B name "h"))).
    + field. auto.
    + intros nm _. ring.
Qed.
Theorem C17_flows (o : cea_opts) (a : cea_adder) (d_in : dict R) (ds : list (dict R)) (m : dict R) :
  cea_setup o = Ok a -> wf_opts o -> o_inflow o = Some d_in -> o_mix o = Flows ds -> cea_port_data o = Ok m ->
  let w := weight (o_spec o) in let names := o_names o in
  forall e old, let out := cea_compute a e old in let W := e (V "Fl_I:stat:W") in
  let c_in := fun i => e (I "Fl_I:tot:composition" i) in let c_mix := fun name i => e (I (name ++ ":composition") i) in
  let c_out := fun j => out (I "composition_out" j) in
  (forall x, In x (dkeys m) -> w x <> 0) -> mass w (sorted (dkeys d_in)) c_in <> 0 ->
  (forall nd, In nd (combine names ds) -> mass w (sorted (dkeys (snd nd))) (c_mix (fst nd)) <> 0) ->
  W + lsum (fun name => e (B name "W")) names <> 0 ->
  out (V "Wout") = W + lsum (fun name => e (B name "W")) names /\
  mass w (sorted (dkeys m)) c_out = 1 /\
  (forall x, out (V "Wout") * mass_fraction w (sorted (dkeys m)) c_out x =
     W * mass_fraction w (sorted (dkeys d_in)) c_in x +
     lsum (fun nd => e (B (fst nd) "W") * mass_fraction w (sorted (dkeys (snd nd))) (c_mix (fst nd)) x) (combine names ds)).
Proof.
  intros SU WF IN MX PD w names e old out W c_in c_mix c_o Hw Hm Hr HW.
  destruct (flow_out o a d_in ds m SU WF IN MX PD e old Hw Hm Hr HW) as [A [B [C D]]]. auto.
Qed.
(* every mix name has its own composition: a surplus name is rejected *)
Theorem C17_flow_names (o : cea_opts) (a : cea_adder) (ds : list (dict R)) :
  cea_setup o = Ok a -> wf_opts o -> o_mix o = Flows ds -> (List.length (o_names o) <= List.length ds)%nat.
Proof.
  intros SU WF MX. destruct (setup_inv o a SU WF) as [d_in' [m' [IN' [PD' [AI [AM [AN [NN [NM [SUB [WT X]]]]]]]]]]].
  rewrite MX in X. destruct X as [_ [R2 _]]. rewrite <- R2, map_length, combine_length. lia.
Qed.
Theorem C18_flows (o : cea_opts) (a : cea_adder) (ds : list (dict R)) :
  cea_setup o = Ok a -> wf_opts o -> o_mix o = Flows ds ->
  let names := o_names o in
  forall e old, let out := cea_compute a e old in let W := e (V "Fl_I:stat:W") in
  out (V "Wout") <> 0 ->
  out (V "Wout") = W + lsum (fun name => e (B name "W")) names /\
  out (V "Wout") * out (V "mass_avg_h") = W * e (V "Fl_I:tot:h") + lsum (fun name => e (B name "W") * e (B name "h")) names.
Proof.
  intros SU WF MX names e old out W HW.
  destruct (setup_inv o a SU WF) as [d_in' [m' [IN' [PD' [AI [AM [AN [NN [NM [SUB [WT X]]]]]]]]]]].
  rewrite MX in X. destruct X as [R1 [R2 R3]].
  assert (ST : forall nm c, In nm names -> c_h (cea_flow_step a e c nm) = c_h c + e (B nm "W") * e (B nm "h") /\ c_W (cea_flow_step a e c nm) = c_W c + e (B nm "W")).
  { intros nm c H. unfold names in H. rewrite <- R2 in H. apply in_map_iff in H. destruct H as [[nm' d] [<- H]]. cbn [fst].
    destruct (R3 nm' d H) as [_ [wts [E _]]]. unfold cea_flow_step. cbv zeta. rewrite E. cbn [c_h c_W]. split; ring. }
  set (c := cea_mix a e old).
  assert (CW : c_W c = W + lsum (fun nm => e (B nm "W")) names).
  { unfold c, cea_mix. rewrite R1, AN. etransitivity; [apply (fold_acc (cea_flow_step a e) c_W _ _ (fun nm => e (B nm "W"))); intros; apply ST; auto|reflexivity]. }
  assert (CH : c_h c = e (V "Fl_I:tot:h") * W + lsum (fun nm => e (B nm "W") * e (B nm "h")) names).
  { unfold c, cea_mix. rewrite R1, AN. etransitivity; [apply (fold_acc (cea_flow_step a e) c_h _ _ (fun nm => e (B nm "W") * e (B nm "h"))); intros; apply ST; auto|reflexivity]. }
  assert (OW : out (V "Wout") = c_W c) by (unfold out, cea_compute; cbv zeta; rewrite upd_eq; reflexivity).
  rewrite OW in *. split; [exact CW|]. unfold out. unfold cea_compute. cbv zeta. fold c. rewrite upd_neq by discriminate. rewrite upd_eq, CH. field. auto.
Qed.

(* the hypotheses are met: two named streams of Jet-A and methane into air-like gas, shipped janaf data *)
Definition ex_opts : cea_opts := mkCea (specR janaf_dec) (Some [("O", 1); ("N", 4)]) (Reactants ["Jet-A(g)"; "Methane"]) ["fuel1"; "fuel2"].
Definition ex_flow : cea_opts := mkCea (specR janaf_dec) (Some [("O", 1); ("N", 4)]) (Flows [[("O", 1); ("N", 4)]; [("H", 2); ("O", 1)]]) ["a"; "b"].
Definition is_ok {A} (r : res A) : bool := match r with Ok _ => true | Err _ => false end.
Lemma is_ok_spec {A} (r : res A) : is_ok r = true -> exists x, r = Ok x.
Proof. destruct r; [eauto|discriminate]. Qed.
Lemma dR_pos z k : (0 < z)%Z -> 0 < dR (z, k).
Proof. intros Hz. unfold dR. cbn [fst snd]. apply Rmult_lt_0_compat; [apply IZR_lt; auto|apply powerRZ_lt; lra]. Qed.
Lemma janaf_reactants_wf r d : dget (reactants (specR janaf_dec)) r = Some d -> dwf d.
Proof.
  intros H. apply dget_In in H. revert r d H.
  assert (K : forall p, In p (reactants (specR janaf_dec)) -> dwf (snd p)).
  { assert (N : forallb (fun p : string * dict R => nodupb (dkeys (snd p))) (reactants (specR janaf_dec)) = true) by (cbv -[R IZR Rmult powerRZ]; reflexivity).
    intros p Hp. apply nodupb_iff. rewrite forallb_forall in N. exact (N p Hp). }
  intros r d H. exact (K (r, d) H).
Qed.
Lemma janaf_weight x : In x ["Ar"; "C"; "H"; "N"; "O"] -> 0 < weight (specR janaf_dec) x.
Proof.
  intros H. inlist H;
  [change (0 < dR (39948, -3)%Z)|change (0 < dR (12017, -3)%Z)|change (0 < dR (100794, -5)%Z)|change (0 < dR (1400674, -5)%Z)|change (0 < dR (159994, -4)%Z)]; apply dR_pos; lia.
Qed.
Example C17_example :
  (exists a, cea_setup ex_opts = Ok a) /\ wf_opts ex_opts /\ (exists m, cea_port_data ex_opts = Ok m /\ forall x, In x (dkeys m) -> weight (o_spec ex_opts) x <> 0) /\
  (forall r, In r ["Jet-A(g)"; "Methane"] -> dict_mass (weight (specR janaf_dec)) (reactant (specR janaf_dec) r) <> 0) /\
  (exists a, cea_setup ex_flow = Ok a) /\ wf_opts ex_flow.
Proof.
  split; [|split; [|split; [|split; [|split]]]].
  - apply is_ok_spec. cbv -[R IZR Rmult powerRZ Rdiv Rplus R0 R1]. reflexivity.
  - split; [|split]; cbn [ex_opts o_inflow o_spec o_mix]; [|intros r d; apply janaf_reactants_wf|trivial].
    intros d H. injection H as <-. unfold dwf. simpl. repeat constructor; simpl; intuition discriminate.
  - assert (K : exists m, cea_port_data ex_opts = Ok m) by (apply is_ok_spec; cbv -[R IZR Rmult powerRZ Rdiv Rplus R0 R1]; reflexivity).
    destruct K as [m E]. exists m. split; auto. intros x Hx. apply Rgt_not_eq, janaf_weight.
    assert (K : dkeys m = ["O"; "N"; "C"; "H"]).
    { assert (K : match cea_port_data ex_opts with Ok m => dkeys m | Err _ => [] end = ["O"; "N"; "C"; "H"]) by (cbv -[R IZR Rmult powerRZ Rdiv Rplus R0 R1]; reflexivity).
      rewrite E in K. auto. }
    rewrite K in Hx. simpl in *. tauto.
  - assert (WC := janaf_weight "C" ltac:(simpl; auto)). assert (WH := janaf_weight "H" ltac:(simpl; auto)).
    intros r H. apply Rgt_not_eq. inlist H.
    + change (dict_mass (weight (specR janaf_dec)) (reactant (specR janaf_dec) "Jet-A(g)")) with (dR (12, 0)%Z * weight (specR janaf_dec) "C" + (dR (23, 0)%Z * weight (specR janaf_dec) "H" + 0)).
      assert (A := dR_pos 12 0 ltac:(lia)). assert (A' := dR_pos 23 0 ltac:(lia)). nra.
    + change (dict_mass (weight (specR janaf_dec)) (reactant (specR janaf_dec) "Methane")) with (dR (1, 0)%Z * weight (specR janaf_dec) "C" + (dR (4, 0)%Z * weight (specR janaf_dec) "H" + 0)).
      assert (A := dR_pos 1 0 ltac:(lia)). assert (A' := dR_pos 4 0 ltac:(lia)). nra.
  - apply is_ok_spec. cbv -[R IZR Rmult powerRZ Rdiv Rplus R0 R1]. reflexivity.
  - split; [|split]; cbn [ex_flow o_inflow o_spec o_mix].
    + intros d H. injection H as <-. unfold dwf. simpl. repeat constructor; simpl; intuition discriminate.
    + intros r d; apply janaf_reactants_wf.
    + intros d [<-|[<-|[]]]; unfold dwf; simpl; repeat constructor; simpl; intuition discriminate.
Qed.

(* ---------- C19 ---------- *)
(* x is an element of one of the reactants / streams listed for mixing *)
Definition in_mix (o : cea_opts) (x : string) : Prop :=
  match o_mix o with Reactants l => exists r, In r l /\ In x (dkeys (reactant (o_spec o) r)) | Flows l => exists d, In d l /\ In x (dkeys d) end.
Definition inflow_elements (o : cea_opts) : list string := match o_inflow o with Some d => dkeys d | None => ["N"; "O"; "Ar"; "C"] end.
Theorem C19_cea_announced (o : cea_opts) (m : dict R) : cea_port_data o = Ok m ->
  forall x, In x (dkeys m) <-> In x (inflow_elements o) \/ in_mix o x.
Proof.
  unfold cea_port_data. cbv zeta. intros H x.
  assert (EI : inflow_elements o = dkeys (match o_inflow o with None => CEA_AIR_COMPOSITION | Some d => d end)) by (unfold inflow_elements; destruct (o_inflow o); reflexivity).
  rewrite EI. unfold in_mix. destruct (o_mix o) as [l|l].
  - destruct (add_reactants_spec _ _ _ _ H) as [A [B _]]. rewrite B. split; (intros [K|K]; [left; auto|right]).
    + destruct K as [r [d [K1 [K2 K3]]]]. exists r. split; auto. unfold reactant. rewrite K2. auto.
    + destruct K as [r [K1 K2]]. destruct (A r K1) as [d Hd]. exists r, d. unfold reactant in K2. rewrite Hd in K2. auto.
  - injection H as <-. destruct (fold_dupdate_spec l (match o_inflow o with None => CEA_AIR_COMPOSITION | Some d => d end)) as [B _]. apply B.
Qed.
(* the only failure is an unknown reactant *)
Theorem C19_cea_unknown_reactant (o : cea_opts) :
  (exists m, cea_port_data o = Ok m) \/
  (cea_port_data o = Err KeyError /\ exists l r, o_mix o = Reactants l /\ In r l /\ dget (reactants (o_spec o)) r = None).
Proof.
  unfold cea_port_data. cbv zeta. destruct (o_mix o) as [l|l]; [|eauto].
  generalize (match o_inflow o with None => CEA_AIR_COMPOSITION | Some d => d end). induction l as [|r l IH]; intros m; simpl; [eauto|].
  destruct (dget (reactants (o_spec o)) r) eqn:E.
  - destruct (IH (dupdate m d)) as [K|[K1 [l' [r' [K2 [K3 K4]]]]]]; [auto|]. right. split; auto. injection K2 as <-. exists (r :: l), r'. simpl. auto.
  - right. split; auto. exists (r :: l), r. simpl. auto.
Qed.
(* the computed composition vector has exactly one entry per announced element, in sorted order, and every entry is written *)
Theorem C19_cea_vector (o : cea_opts) (a : cea_adder) (m : dict R) : cea_setup o = Ok a -> wf_opts o -> cea_port_data o = Ok m ->
  ad_mixed a = sorted (dkeys m) /\ NoDup (ad_mixed a) /\ List.length (ad_mixed a) = List.length m /\
  (forall x, In x (ad_mixed a) <-> In x (inflow_elements o) \/ in_mix o x) /\
  (forall e old old' j, (j < List.length m)%nat -> cea_compute a e old (I "composition_out" j) = cea_compute a e old' (I "composition_out" j)) /\
  (forall e old j, (List.length m <= j)%nat -> cea_compute a e old (I "composition_out" j) = old (I "composition_out" j)).
Proof.
  intros SU WF PD. destruct (setup_inv o a SU WF) as [d_in' [m' [IN' [PD' [AI [AM [AN [NN [NM [SUB [WT X]]]]]]]]]]].
  rewrite PD in PD'. injection PD' as <-.
  assert (LM : List.length (ad_mixed a) = List.length m). { rewrite AM, <- (Permutation_length (sorted_perm (dkeys m))). unfold dkeys. apply map_length. }
  assert (ZO : forall e old x, (forall nm, x <> B nm "W") -> c_out (cea_mix a e old) x = old x).
  { intros e old x Hx. unfold cea_mix. destruct (ad_reactants a) as [rs|].
    - rewrite (fold_skip (cea_react_step e) (fun c => c_out c x)); auto. intros b c' _. unfold cea_react_step. cbv zeta. cbn [c_out]. apply upd_neq. auto.
    - rewrite (fold_skip (cea_flow_step a e) (fun c => c_out c x)); auto. intros b c' _. unfold cea_flow_step. cbv zeta. destruct (dget _ _) as [[? ?]|]; auto. }
  assert (ZB : forall e old old' j, c_b0 (cea_mix a e old) j = c_b0 (cea_mix a e old') j).
  { intros e old old' j. unfold cea_mix. destruct (ad_reactants a) as [rs|].
    - rewrite !(fold_acc (cea_react_step e) (fun c => c_b0 c j) _ _ (fun nr => wt (snd (snd nr)) j * (e (V "Fl_I:stat:W") * e (B (fst nr) "ratio")))); auto.
    - assert (G : forall l c c', c_b0 c j = c_b0 c' j -> c_b0 (fold_left (cea_flow_step a e) l c) j = c_b0 (fold_left (cea_flow_step a e) l c') j).
      { induction l as [|y l IH]; intros c c' E; simpl; auto. apply IH. unfold cea_flow_step. cbv zeta. destruct (dget _ _) as [[? ?]|]; auto. cbn [c_b0]. rewrite E. auto. }
      apply G. reflexivity. }
  split; auto. split; auto. split; auto. split; [|split].
  - intros x. rewrite AM, in_sorted. apply C19_cea_announced; auto.
  - intros e old old' j Hj. unfold cea_compute. cbv zeta. rewrite !upd_neq by discriminate. rewrite !upd_vec_hit by lia. f_equal. f_equal; auto.
    apply lsum_ext. auto.
  - intros e old j Hj. unfold cea_compute. cbv zeta. rewrite !upd_neq by discriminate.
    assert (K : forall v e0, upd_vec e0 "composition_out" (List.length (ad_mixed a)) v (I "composition_out" j) = e0 (I "composition_out" j)).
    { intros v e0. unfold upd_vec. apply (fold_skip (fun (e : env) j => upd e (I "composition_out" j) (v j)) (fun e : env => e (I "composition_out" j))).
      intros k e' Hk. apply in_seq in Hk. apply upd_neq. intros E. injection E as E. lia. }
    rewrite K. apply ZO. discriminate.
Qed.
(* setup's look-ups of element positions never fail *)
Theorem C19_index_found (o : cea_opts) (a : cea_adder) : cea_setup o = Ok a -> wf_opts o ->
  forall x, In x (ad_inflow a) -> (index_of x (ad_mixed a) < List.length (ad_mixed a))%nat /\ nth (index_of x (ad_mixed a)) (ad_mixed a) "" = x.
Proof.
  intros SU WF x Hx. destruct (setup_inv o a SU WF) as [d_in' [m' [IN' [PD' [AI [AM [AN [NN [NM [SUB [WT X]]]]]]]]]]]. apply index_in; auto.
Qed.
(* The claim is false when more compositions than mix names are given: the surplus reactant is accepted and its elements are
   announced, but it is never mixed in *)
Definition ex_extra : cea_opts := mkCea (specR janaf_dec) (Some [("O", 1); ("N", 4)]) (Reactants ["H2"; "Methane"]) ["fuel1"].
Theorem C19_surplus_reactant_refuted : (exists a, cea_setup ex_extra = Ok a) /\ exists m, cea_port_data ex_extra = Ok m /\ In "C" (dkeys m) /\
  ~ In "C" ["O"; "N"] /\ ~ In "C" (dkeys (reactant (specR janaf_dec) "H2")) /\ o_names ex_extra = ["fuel1"].
Proof.
  split; [apply is_ok_spec; cbv -[R IZR Rmult powerRZ Rdiv Rplus R0 R1]; reflexivity|].
  assert (K : exists m, cea_port_data ex_extra = Ok m) by (apply is_ok_spec; cbv -[R IZR Rmult powerRZ Rdiv Rplus R0 R1]; reflexivity).
  destruct K as [m E]. exists m. split; auto. split; [|split; [|split; [|reflexivity]]].
  - apply (C19_cea_announced _ _ E). right. exists "Methane". split; [simpl; auto|]. cbv -[R IZR Rmult powerRZ]. auto.
  - simpl. intuition discriminate.
  - cbv -[R IZR Rmult powerRZ]. intuition discriminate.
Qed.
(* Without an inflow composition the announced elements are those of air, but setup of the same component fails *)
Theorem C19_default_inflow_refuted (o : cea_opts) (m : dict R) : o_inflow o = None -> cea_port_data o = Ok m -> cea_setup o = Err ValueError.
Proof. intros E H. unfold cea_setup. cbv zeta. rewrite H, E. reflexivity. Qed.
(* The tabular method announces nothing at all (output_port_data has no return statement) *)
Theorem C19_tabular_refuted (o : tab_opts) : forall d, tab_port_data o <> Ok (Some d).
Proof. intros d. unfold tab_port_data. destruct (t_mode o); [destruct (str_in _ _)|]; discriminate. Qed.

(* ---------- C18 for the tabular method, C20, C49 ---------- *)
Definition compo_in (e : env) : nat -> R := fun i => e (I "Fl_I:tot:composition" i).
Definition compo_mix (e : env) (name : string) : nat -> R := fun i => e (I (name ++ ":composition") i).
Definition compo_out (e : env) : nat -> R := fun i => e (I "composition_out" i).
(* a tabular composition vector c of length n holds constituent-to-air ratios: a flow W contains this much air *)
Definition air (n : nat) (W : R) (c : nat -> R) : R := W / (1 + lsum c (seq 0 n)).

Lemma tab_react_inv a idx e old : ta_idx a = Some idx -> NoDup (ta_names a) ->
  let W := e (V "Fl_I:stat:W") in let A := air (ta_n a) W (compo_in e) in let Wm := fun name => A * e (B name "ratio") in
  let out := tab_compute a e old in
  out (V "Wout") = W + lsum Wm (ta_names a) /\ (forall name, In name (ta_names a) -> out (B name "W") = Wm name) /\
  (forall k, (k < ta_n a)%nat -> compo_out out k = (A * compo_in e k + (if Nat.eqb k idx then lsum Wm (ta_names a) else 0)) / A) /\
  out (V "mass_avg_h") = (W * e (V "Fl_I:tot:h") + lsum (fun name => Wm name * e (B name "h")) (ta_names a)) / out (V "Wout").
Proof.
  intros E N W A Wm out. unfold out, tab_compute. cbv zeta. rewrite E. set (s := tab_start a e old).
  assert (TA : t_air s = A) by reflexivity. rewrite TA. unfold tab_finish.
  assert (OW : t_W (fold_left (tab_react_step idx A e) (ta_names a) s) = W + lsum Wm (ta_names a)).
  { rewrite (fold_acc (tab_react_step idx A e) t_W _ _ Wm); auto. unfold s, tab_start. cbv zeta. cbn [t_W]. fold W. ring. }
  split; [|split; [|split]].
  - rewrite upd_neq by discriminate. rewrite upd_eq. auto.
  - intros nm Hnm. rewrite !upd_neq by discriminate. rewrite upd_vec_other by discriminate.
    apply (fold_hit (tab_react_step idx A e) (fun c => t_out c (B nm "W")) string_dec _ _ nm); auto.
    + intros b c' _ Hb. unfold tab_react_step. cbv zeta. cbn [t_out]. apply upd_neq. congruence.
    + intros c'. unfold tab_react_step. cbv zeta. cbn [t_out]. apply upd_eq.
  - intros k Hk. unfold compo_out. rewrite !upd_neq by discriminate. rewrite upd_vec_hit by auto. f_equal.
    destruct (Nat.eqb k idx) eqn:K.
    + rewrite (fold_acc (tab_react_step idx A e) (fun c => t_other c k) _ _ Wm).
      * f_equal. unfold s, tab_start. cbv zeta. cbn [t_other]. fold W. unfold compo_in, A, air. apply Rplus_0_l.
      * intros b c' _. unfold tab_react_step. cbv zeta. cbn [t_other]. rewrite K. reflexivity.
    + rewrite (fold_skip (tab_react_step idx A e) (fun c => t_other c k)).
      * rewrite Rplus_0_r. unfold s, tab_start. cbv zeta. cbn [t_other]. fold W. unfold compo_in, A, air. apply Rplus_0_l.
      * intros b c' _. unfold tab_react_step. cbv zeta. cbn [t_other]. rewrite K. reflexivity.
  - rewrite upd_eq, OW. rewrite upd_neq by discriminate. rewrite upd_eq. f_equal.
    rewrite (fold_acc (tab_react_step idx A e) t_h _ _ (fun name => Wm name * e (B name "h"))); auto.
Qed.
Lemma tab_flow_inv a e old : ta_idx a = None ->
  let W := e (V "Fl_I:stat:W") in let n := ta_n a in let Am := fun name => air n (e (B name "W")) (compo_mix e name) in
  let A := air n W (compo_in e) + lsum Am (ta_names a) in
  let out := tab_compute a e old in
  out (V "Wout") = W + lsum (fun name => e (B name "W")) (ta_names a) /\
  (forall k, (k < n)%nat -> compo_out out k = (air n W (compo_in e) * compo_in e k + lsum (fun name => Am name * compo_mix e name k) (ta_names a)) / A) /\
  out (V "mass_avg_h") = (W * e (V "Fl_I:tot:h") + lsum (fun name => e (B name "W") * e (B name "h")) (ta_names a)) / out (V "Wout").
Proof.
  intros E W n Am A out. unfold out, tab_compute. cbv zeta. rewrite E. set (s := tab_start a e old). unfold tab_finish. fold n.
  assert (OW : t_W (fold_left (tab_flow_step n e) (ta_names a) s) = W + lsum (fun name => e (B name "W")) (ta_names a)).
  { rewrite (fold_acc (tab_flow_step n e) t_W _ _ (fun name => e (B name "W"))); auto. unfold s, tab_start. cbv zeta. cbn [t_W]. fold W. ring. }
  assert (OA : t_air (fold_left (tab_flow_step n e) (ta_names a) s) = A) by (rewrite (fold_acc (tab_flow_step n e) t_air _ _ Am); auto).
  split; [|split].
  - rewrite upd_neq by discriminate. rewrite upd_eq. auto.
  - intros k Hk. unfold compo_out. rewrite !upd_neq by discriminate. rewrite upd_vec_hit by auto. rewrite OA. f_equal.
    rewrite (fold_acc (tab_flow_step n e) (fun c => t_other c k) _ _ (fun name => Am name * compo_mix e name k)).
    + f_equal. unfold s, tab_start. cbv zeta. cbn [t_other]. fold W. unfold compo_in, air. apply Rplus_0_l.
    + reflexivity.
  - rewrite upd_eq, OW. rewrite upd_neq by discriminate. rewrite upd_eq. f_equal.
    rewrite (fold_acc (tab_flow_step n e) t_h _ _ (fun name => e (B name "W") * e (B name "h"))); auto.
Qed.
Lemma tab_setup_inv o a : tab_setup o = Ok a -> ta_n a = List.length (tab_inflow o) /\ ta_names a = t_names o /\ NoDup (t_names o) /\
  (forall r, t_mode o = TReactant r -> ta_idx a = Some (index_of r (sorted (dkeys (tab_inflow o)))) /\ In r (dkeys (tab_inflow o))) /\
  (t_mode o = TFlow -> ta_idx a = None).
Proof.
  unfold tab_setup. destruct (tab_port_data o) eqn:P; [|discriminate]. destruct (nodupb (t_names o)) eqn:N; [|discriminate]. injection 1 as <-.
  cbn [ta_n ta_names ta_idx]. split; auto. split; auto. split; [apply nodupb_iff; auto|]. split.
  - intros r E. rewrite E. split; auto. unfold tab_port_data in P. rewrite E in P. destruct (str_in r (sorted (dkeys (tab_inflow o)))) eqn:S; [|discriminate].
    apply str_in_iff in S. apply (proj1 (in_sorted _ _)) in S. auto.
  - intros E. rewrite E. auto.
Qed.

Theorem C18_tabular (o : tab_opts) (a : tab_adder) : tab_setup o = Ok a ->
  forall e old, let out := tab_compute a e old in let W := e (V "Fl_I:stat:W") in
  let Wm := fun name => match t_mode o with TReactant _ => out (B name "W") | TFlow => e (B name "W") end in
  out (V "Wout") <> 0 ->
  out (V "Wout") = W + lsum Wm (t_names o) /\
  out (V "Wout") * out (V "mass_avg_h") = W * e (V "Fl_I:tot:h") + lsum (fun name => Wm name * e (B name "h")) (t_names o).
Proof.
  intros SU e old out W Wm HW. destruct (tab_setup_inv o a SU) as [LN [NM [ND [TR TF]]]]. destruct (t_mode o) as [r|] eqn:M.
  - destruct (TR r eq_refl) as [IX _]. rewrite <- NM in ND. destruct (tab_react_inv a _ e old IX ND) as [A1 [A2 [A3 A4]]].
    fold out in A1, A2, A4. rewrite NM in *.
    assert (Q : forall f, lsum (fun name => Wm name * f name) (t_names o) = lsum (fun name => air (ta_n a) W (compo_in e) * e (B name "ratio") * f name) (t_names o)).
    { intros f. apply lsum_ext. intros nm H. unfold Wm. rewrite (A2 nm H). reflexivity. }
    split.
    + rewrite A1 at 1. f_equal. apply lsum_ext. intros nm H. unfold Wm. rewrite (A2 nm H). reflexivity.
    + rewrite A4, (Q (fun name => e (B name "h"))). assert (F : forall x y : R, y <> 0 -> y * (x / y) = x) by (intros; field; auto). rewrite F by auto. reflexivity.
  - specialize (TF eq_refl). destruct (tab_flow_inv a e old TF) as [A1 [A3 A4]]. fold out in A1, A4. rewrite NM in *. split; auto. rewrite A4. assert (F : forall x y : R, y <> 0 -> y * (x / y) = x) by (intros; field; auto). rewrite F by auto. reflexivity.
Qed.

(* C49: the tabular method conserves the air flow and the flow of every constituent *)
Theorem C49_reactant (o : tab_opts) (a : tab_adder) (r : string) : tab_setup o = Ok a -> dwf (tab_inflow o) -> t_mode o = TReactant r ->
  let n := List.length (tab_inflow o) in
  forall e old, let out := tab_compute a e old in let W := e (V "Fl_I:stat:W") in
  W <> 0 -> 1 + lsum (compo_in e) (seq 0 n) <> 0 -> out (V "Wout") <> 0 ->
  air n (out (V "Wout")) (compo_out out) = air n W (compo_in e) /\
  (forall k, (k < n)%nat -> air n (out (V "Wout")) (compo_out out) * compo_out out k =
     air n W (compo_in e) * compo_in e k + (if string_dec (nth k (sorted (dkeys (tab_inflow o))) "") r then lsum (fun name => out (B name "W")) (t_names o) else 0)).
Proof.
  intros SU DW M n e old out W HW HS HO. destruct (tab_setup_inv o a SU) as [LN [NM [ND [TR _]]]].
  destruct (TR r M) as [IX IR]. rewrite <- NM in ND. destruct (tab_react_inv a _ e old IX ND) as [A1 [A2 [A3 A4]]]. fold out in A1, A2, A3, A4. rewrite NM, LN in *. fold n in A1, A2, A3.
  fold W in A1, A2, A3. set (A := air n W (compo_in e)) in *. set (idx := index_of r (sorted (dkeys (tab_inflow o)))) in *.
  assert (IS : In r (sorted (dkeys (tab_inflow o)))) by (apply in_sorted; auto).
  assert (LS : List.length (sorted (dkeys (tab_inflow o))) = n) by (rewrite <- (Permutation_length (sorted_perm _)); unfold dkeys; apply map_length).
  destruct (index_in _ _ IS) as [I1 I2]. fold idx in I1, I2. rewrite LS in I1.
  assert (HA : A <> 0). { unfold A, air. apply Rmult_integral_contrapositive. split; auto. apply Rinv_neq_0_compat; auto. }
  assert (SW : lsum (fun name => out (B name "W")) (t_names o) = lsum (fun name => A * e (B name "ratio")) (t_names o)) by (apply lsum_ext; auto).
  assert (AW : A * (1 + lsum (compo_in e) (seq 0 n)) = W) by (unfold A, air; field; auto).
  assert (SO : lsum (compo_out out) (seq 0 n) = (A * lsum (compo_in e) (seq 0 n) + lsum (fun name => A * e (B name "ratio")) (t_names o)) / A).
  { rewrite (lsum_ext _ (fun k => (A * compo_in e k + (if Nat.eqb k idx then lsum (fun name => A * e (B name "ratio")) (t_names o) else 0)) / A)).
    - rewrite lsum_div, lsum_plus, lsum_scal. f_equal. f_equal. rewrite (lsum_single _ (seq 0 n) idx).
      + rewrite Nat.eqb_refl. auto. + apply seq_NoDup. + apply in_seq. lia.
      + intros b _ Hb. apply Nat.eqb_neq in Hb. rewrite Hb. auto.
    - intros k Hk. apply in_seq in Hk. apply A3. lia. }
  assert (AO : air n (out (V "Wout")) (compo_out out) = A).
  { unfold air at 1. rewrite SO. replace (1 + (A * lsum (compo_in e) (seq 0 n) + lsum (fun name => A * e (B name "ratio")) (t_names o)) / A) with (out (V "Wout") / A).
    - field. auto. - rewrite A1, <- AW. field. auto. }
  split; auto. intros k Hk. rewrite AO, A3 by auto. rewrite SW.
  destruct (string_dec _ _) as [E|E].
  - replace (Nat.eqb k idx) with true; [field; auto|]. symmetry. apply Nat.eqb_eq. symmetry. apply index_nth; auto; try lia. apply sorted_nodup; auto.
  - replace (Nat.eqb k idx) with false; [field; auto|]. symmetry. apply Nat.eqb_neq. intros ->. auto.
Qed.
Theorem C49_flow (o : tab_opts) (a : tab_adder) : tab_setup o = Ok a -> t_mode o = TFlow ->
  let n := List.length (tab_inflow o) in
  forall e old, let out := tab_compute a e old in let W := e (V "Fl_I:stat:W") in
  let A_in := air n W (compo_in e) in let Am := fun name => air n (e (B name "W")) (compo_mix e name) in
  1 + lsum (compo_in e) (seq 0 n) <> 0 -> (forall name, In name (t_names o) -> 1 + lsum (compo_mix e name) (seq 0 n) <> 0) ->
  A_in + lsum Am (t_names o) <> 0 -> out (V "Wout") <> 0 ->
  air n (out (V "Wout")) (compo_out out) = A_in + lsum Am (t_names o) /\
  (forall k, (k < n)%nat -> air n (out (V "Wout")) (compo_out out) * compo_out out k = A_in * compo_in e k + lsum (fun name => Am name * compo_mix e name k) (t_names o)).
Proof.
  intros SU M n e old out W A_in Am HS HM HA HO. destruct (tab_setup_inv o a SU) as [LN [NM [ND [_ TF]]]]. specialize (TF M).
  destruct (tab_flow_inv a e old TF) as [A1 [A3 A4]]. fold out in A1, A3, A4. rewrite NM, LN in *. fold n W in A1, A3. fold A_in Am in A3.
  set (A := A_in + lsum Am (t_names o)) in *.
  assert (AW : A_in * (1 + lsum (compo_in e) (seq 0 n)) = W) by (unfold A_in, air; field; auto).
  assert (AM : forall nm, In nm (t_names o) -> Am nm * (1 + lsum (compo_mix e nm) (seq 0 n)) = e (B nm "W")) by (intros nm H; unfold Am, air; field; auto).
  assert (SO : lsum (compo_out out) (seq 0 n) = (A_in * lsum (compo_in e) (seq 0 n) + lsum (fun nm => Am nm * lsum (compo_mix e nm) (seq 0 n)) (t_names o)) / A).
  { rewrite (lsum_ext _ (fun k => (A_in * compo_in e k + lsum (fun name => Am name * compo_mix e name k) (t_names o)) / A)).
    - rewrite lsum_div, lsum_plus, lsum_scal. f_equal. f_equal. rewrite lsum_swap. apply lsum_ext. intros nm _. apply lsum_scal.
    - intros k Hk. apply in_seq in Hk. apply A3. lia. }
  assert (OW : out (V "Wout") = A + (A_in * lsum (compo_in e) (seq 0 n) + lsum (fun nm => Am nm * lsum (compo_mix e nm) (seq 0 n)) (t_names o))).
  { rewrite A1, <- AW. rewrite (lsum_ext (fun name => e (B name "W")) (fun nm => Am nm + Am nm * lsum (compo_mix e nm) (seq 0 n))).
    - rewrite lsum_plus. unfold A. ring. - intros nm H. rewrite <- (AM nm H). ring. }
  assert (AO : air n (out (V "Wout")) (compo_out out) = A).
  { unfold air at 1. rewrite SO. replace (1 + (A_in * lsum (compo_in e) (seq 0 n) + lsum (fun nm => Am nm * lsum (compo_mix e nm) (seq 0 n)) (t_names o)) / A) with (out (V "Wout") / A).
    - field. auto. - rewrite OW. field. auto. }
  split; auto. intros k Hk. rewrite AO, A3 by auto. assert (F : forall x y : R, y <> 0 -> y * (x / y) = x) by (intros; field; auto). rewrite F by auto. reflexivity.
Qed.
Example C49_example : exists a, tab_setup (mkTab None (TReactant "FAR") ["fuel"]) = Ok a /\
  let e := (fun x => match x with V "Fl_I:stat:W" => 100 | V "Fl_I:tot:h" => 50 | B _ "ratio" => / 50 | B _ "h" => 10 | _ => 0 end) : env in
  e (V "Fl_I:stat:W") <> 0 /\ 1 + lsum (compo_in e) (seq 0 1) <> 0 /\ tab_compute a e (fun _ => 0) (V "Wout") <> 0.
Proof.
  eexists. split; [reflexivity|]. cbv zeta. split; [lra|]. split; [unfold compo_in; simpl; lra|].
  destruct (tab_react_inv (mkTabAdder 1 (Some O) ["fuel"] [0]) 0 (fun x => match x with V "Fl_I:stat:W" => 100 | V "Fl_I:tot:h" => 50 | B _ "ratio" => / 50 | B _ "h" => 10 | _ => 0 end) (fun _ => 0) eq_refl) as [A _].
  { repeat constructor. simpl. tauto. }
  intros H. assert (Q := eq_trans (eq_sym A) H). unfold air, compo_in in Q. simpl in Q. lra.
Qed.
(* The composition vector is ordered by sorted constituent name (tabular_thermo.py:26-35, thermo_add.py:42-46), but the initial
   value given to it follows the order of the user's dictionary: it is wrong for a dictionary that is not sorted *)
Theorem C49_initial_value_refuted : exists o a, tab_setup o = Ok a /\ dwf (tab_inflow o) /\
  ta_default a <> map (fun k => dgetd (tab_inflow o) k 0) (sorted (dkeys (tab_inflow o))).
Proof.
  exists (mkTab (Some [("WAR", 1); ("FAR", 2)]) (TReactant "FAR") ["fuel"]). eexists. split; [reflexivity|]. split.
  - unfold dwf. simpl. repeat constructor; simpl; intuition discriminate.
  - cbv -[R IZR]. intros H. injection H. lra.
Qed.

(* ---------- C20 ---------- *)
(* reactant flow injected by the CEA method is W * ratio: C18_reactants. By the tabular method: *)
Theorem C20_tabular_flow (o : tab_opts) (a : tab_adder) (r : string) : tab_setup o = Ok a -> t_mode o = TReactant r ->
  forall e old name, In name (t_names o) ->
  tab_compute a e old (B name "W") = e (V "Fl_I:stat:W") / (1 + lsum (compo_in e) (seq 0 (List.length (tab_inflow o)))) * e (B name "ratio").
Proof.
  intros SU M e old name Hn. destruct (tab_setup_inv o a SU) as [LN [NM [ND [TR _]]]].
  destruct (TR r M) as [IX IR]. rewrite <- NM in ND. destruct (tab_react_inv a _ e old IX ND) as [A1 [A2 [A3 A4]]]. rewrite LN, NM in *. apply A2; auto.
Qed.
(* the two methods agree exactly when the inflow is pure air (or nothing is injected) *)
Theorem C20_same_iff_dry_partial (o : tab_opts) (a : tab_adder) (r : string) (oc : cea_opts) (ac : cea_adder) (rs : list string) :
  tab_setup o = Ok a -> t_mode o = TReactant r -> cea_setup oc = Ok ac -> o_mix oc = Reactants rs -> List.length (o_names oc) = List.length rs ->
  forall e ec old oldc name namec, In name (t_names o) -> In namec (o_names oc) ->
  e (V "Fl_I:stat:W") = ec (V "Fl_I:stat:W") -> e (B name "ratio") = ec (B namec "ratio") ->
  e (V "Fl_I:stat:W") * e (B name "ratio") <> 0 -> 1 + lsum (compo_in e) (seq 0 (List.length (tab_inflow o))) <> 0 -> cea_compute ac ec oldc (V "Wout") <> 0 ->
  (tab_compute a e old (B name "W") = cea_compute ac ec oldc (B namec "W") <-> lsum (compo_in e) (seq 0 (List.length (tab_inflow o))) = 0).
Proof.
  intros SU M SC MC LC e ec old oldc name namec Hn Hnc EW ER HP HS HO. rewrite (C20_tabular_flow o a r SU M) by auto.
  destruct (C18_reactants oc ac rs SC MC LC ec oldc HO) as [A _]. rewrite A by auto. rewrite <- EW, <- ER.
  set (S := lsum _ _) in *. set (W := e (V "Fl_I:stat:W")) in *. set (q := e (B name "ratio")) in *. split.
  - intros H. assert (K : W * q = W * q * (1 + S)). { transitivity (W / (1 + S) * q * (1 + S)); [field; auto|rewrite H; auto]. }
    assert (K2 : W * q * S = 0) by nra. apply Rmult_integral in K2. tauto.
  - intros ->. field.
Qed.
Theorem C20_refuted : exists (o : tab_opts) (a : tab_adder) (e : env), tab_setup o = Ok a /\ t_mode o = TReactant "FAR" /\ t_names o = ["fuel"] /\
  tab_compute a e (fun _ => 0) (B "fuel" "W") <> e (V "Fl_I:stat:W") * e (B "fuel" "ratio").
Proof.
  exists (mkTab None (TReactant "FAR") ["fuel"]). eexists.
  exists (fun x => match x with V "Fl_I:stat:W" => 103 | B _ "ratio" => / 50 | I "Fl_I:tot:composition" _ => 3 / 100 | _ => 0 end).
  split; [reflexivity|]. split; [reflexivity|]. split; [reflexivity|].
  rewrite (C20_tabular_flow (mkTab None (TReactant "FAR") ["fuel"]) _ "FAR" eq_refl eq_refl) by (simpl; auto). unfold compo_in. simpl. lra.
Qed.
