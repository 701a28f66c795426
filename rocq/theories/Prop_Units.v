(* C42: the units in which a flow station's variables are declared, for either method, every mode and every station name. *)
From Verif Require Import Spec_Wire Model_Thermo Proofs_Wire Prop_Thermo.
Open Scope string_scope. Open Scope list_scope. Open Scope R_scope.

(* the units of a flow station as the user sees them *)
Definition user_units : list (string * string) :=
  [("T", "degR"); ("P", "lbf/inch**2"); ("h", "Btu/lbm"); ("S", "Btu/(lbm*degR)"); ("gamma", ""); ("Cp", "Btu/(lbm*degR)"); ("Cv", "Btu/(lbm*degR)");
   ("rho", "lbm/ft**3"); ("R", "Btu/(lbm*degR)")].
Definition user_static_units : list (string * string) :=
  [("area", "inch**2"); ("W", "lbm/s"); ("V", "ft/s"); ("Vsonic", "ft/s"); ("MN", "")].
(* the outputs of a group with their declared units *)
Definition declared (g : group) : list (string * string) :=
  flat_map (fun s => map (fun m => (gname (sname s) (pout s) (fst m), fst (snd m))) (souts s)) (subs g).
Lemma declared_names g : map fst (declared g) = g_outs g.
Proof.
  unfold declared, g_outs. induction (subs g) as [|s r IH]; [reflexivity|]. cbn [flat_map]. rewrite map_app, IH. f_equal.
  unfold out_names, names. rewrite !map_map. reflexivity.
Qed.
Lemma nodup_fst {A B} (l : list (A * B)) a b c : NoDup (map fst l) -> In (a, b) l -> In (a, c) l -> b = c.
Proof.
  induction l as [|[x y] l IH]; cbn; intros N H K; [contradiction|]. inversion N as [|? ? N1 N2]; subst.
  destruct H as [H|H], K as [K|K]; try congruence; auto.
  - injection H as -> ->. exfalso. apply N1. change a with (fst (a, c)). apply in_map. auto.
  - injection K as -> ->. exfalso. apply N1. change a with (fst (a, b)). apply in_map. auto.
Qed.
Theorem C42_units tp me m fl (Hfl : ok_name fl) :
  (forall x u, In (x, u) user_units -> forall u', In (at_ fl x, u') (declared (thermo tp me m fl)) <-> u' = u) /\
  (has "static" m = true -> forall x u, In (x, u) user_static_units -> forall u', In (at_ fl x, u') (declared (thermo tp me m fl)) <-> u' = u).
Proof.
  assert (N : NoDup (map fst (declared (thermo tp me m fl)))) by (rewrite declared_names; apply C42_outputs; auto).
  assert (K : forall x u, In (at_ fl x, u) (declared (thermo tp me m fl)) -> forall u', In (at_ fl x, u') (declared (thermo tp me m fl)) <-> u' = u).
  { intros x u H u'. split; [intros H'; eapply nodup_fst; eauto|intros ->; auto]. }
  assert (F : forall s, In s (subs (thermo tp me m fl)) -> forall x u v pi l n, s = unit_sub n fl l pi -> In (x, (u, v)) l -> In (at_ fl x, u) (declared (thermo tp me m fl))).
  { intros s Hs x u v pi l n -> Hx. unfold declared. apply in_flat_map. eexists. split; [exact Hs|].
    apply in_map_iff. exists (at_ fl x, (u, v)). split.
    - cbn [fst snd unit_sub sname pout]. f_equal. apply gname_unit.
    - cbn [unit_sub souts]. unfold unit_outs. apply in_map_iff. exists (x, (u, v)). split; [reflexivity|auto]. }
  split.
  - intros x u H. apply K.
    assert (Hs : In (unit_sub "flow" fl eng_props (flow_pin m)) (subs (thermo tp me m fl))) by (destruct m; cbn; tauto).
    cbn in H. repeat destruct H as [H|H]; try contradiction; injection H as <- <-; eapply F; try exact Hs; try reflexivity; cbn; tauto.
  - intros St x u H. apply K.
    assert (Hs : In (flow_static_sub fl) (subs (thermo tp me m fl))) by (destruct m; try discriminate; cbn; tauto).
    cbn in H. repeat destruct H as [H|H]; try contradiction; injection H as <- <-; eapply F; try exact Hs; try reflexivity; cbn; tauto.
Qed.
Example C42_units_nonvacuous : ok_name "Fl_O:stat" /\ has "static" static_MN = true.
Proof. split; [split; [reflexivity|discriminate]|reflexivity]. Qed.
