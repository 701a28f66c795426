(* Properties C43 (port data of an element) and C50 (chemical elements are never lost along the flow path). *)
From Verif Require Import Lib_Py.
From Verif Require Import Model_Graph Spec_Flow Model_Ports Proofs_ThermoAdd Prop_Graph.
From Coq Require Import Relations.
Open Scope string_scope. Open Scope list_scope.

(* ---------- C43 ---------- *)
(* what a successful call did: the input side is untouched, the named output port holds d, every other output port is as before *)
Definition stored (e e' : elem) (port : string) (d : pdata) : Prop :=
  fl_i e' = fl_i e /\ dget (fl_o e') port = Some d /\ forall p, p <> port -> dget (fl_o e') p = dget (fl_o e) p.
Lemma put_stored e port d : stored e (put e port d) port d.
Proof. split; [reflexivity|split; [apply dget_dset_same|intros; apply dget_dset_other; auto]]. Qed.
Theorem C43_copy_port : forall e src out d, dget (fl_i e) src = Some d -> exists e', copy_flow e (Port src) out = Ok e' /\ stored e e' out d.
Proof. intros e src out d H. exists (put e out d). cbn. rewrite H. split; [reflexivity|apply put_stored]. Qed.
Theorem C43_copy_missing_port : forall e src out, dget (fl_i e) src = None -> copy_flow e (Port src) out = Err KeyError.
Proof. intros e src out H. cbn. rewrite H. reflexivity. Qed.
Theorem C43_copy_adder : forall e out d, exists e', copy_flow e (Adder (Ok d)) out = Ok e' /\ stored e e' out d.
Proof. intros e out d. exists (put e out d). split; [reflexivity|apply put_stored]. Qed.
Theorem C43_copy_adder_error : forall e out x, copy_flow e (Adder (Err x)) out = Err x.
Proof. reflexivity. Qed.
Theorem C43_copy_rejects_other : forall e out, copy_flow e OtherObj out = Err ValueError.
Proof. reflexivity. Qed.
Theorem C43_init_data : forall e out d, exists e', init_output_flow e out (Data d) = Ok e' /\ stored e e' out d.
Proof. intros e out d. exists (put e out d). split; [reflexivity|apply put_stored]. Qed.
Theorem C43_init_adder : forall e out r, match r with
  | Ok d => exists e', init_output_flow e out (FromAdder r) = Ok e' /\ stored e e' out d
  | Err x => init_output_flow e out (FromAdder r) = Err x end.
Proof. intros e out [d|x]; cbn; [exists (put e out d); split; [reflexivity|apply put_stored]|reflexivity]. Qed.
Print Assumptions C43_copy_port.
Print Assumptions C43_copy_missing_port.
Print Assumptions C43_copy_adder.
Print Assumptions C43_copy_adder_error.
Print Assumptions C43_copy_rejects_other.
Print Assumptions C43_init_data.
Print Assumptions C43_init_adder.

Lemma copy_flow_inv e src out e' : copy_flow e src out = Ok e' -> exists d, e' = put e out d /\
  match src with Port s => dget (fl_i e) s = Some d | Adder r => r = Ok d | OtherObj => False end.
Proof.
  destruct src as [s|[d|x]|]; cbn; intros H; try discriminate.
  - destruct (dget (fl_i e) s) as [d|] eqn:E; [|discriminate]. inversion H. eauto.
  - inversion H. eauto.
Qed.
Lemma copies_inv ports : forall e src e', copies e src ports = Ok e' ->
  fl_i e' = fl_i e /\ (forall p, ~ In p ports -> dget (fl_o e') p = dget (fl_o e) p) /\
  (ports <> [] -> exists d, dget (fl_i e) src = Some d /\ forall p, In p ports -> dget (fl_o e') p = Some d).
Proof.
  induction ports as [|q r IH]; intros e src e' H; cbn [copies] in H.
  - inversion H; subst. split; [reflexivity|split; [auto|congruence]].
  - destruct (copy_flow e (Port src) q) as [e1|x] eqn:E; [|discriminate].
    apply copy_flow_inv in E as [d [-> Hd]]. destruct (IH _ _ _ H) as [H1 [H2 H3]]. cbn in H1.
    split; [exact H1|split].
    + intros p Hp. rewrite (H2 p) by (intros X; apply Hp; right; exact X). apply dget_dset_other. intros ->. apply Hp. left. reflexivity.
    + intros _. exists d. split; [exact Hd|]. intros p Hp.
      destruct (in_dec string_dec p r) as [Hr|Hr].
      * destruct (H3 ltac:(intros ->; exact Hr)) as [d' [Hd' Hall]]. cbn in Hd'. rewrite (Hall p Hr). congruence.
      * rewrite (H2 p Hr). destruct Hp as [->|Hp]; [apply dget_dset_same|contradiction].
Qed.
Lemma get_ports_inv l : forall e ds, get_ports e l = Ok ds -> Forall2 (fun p d => dget (fl_i e) p = Some d) l ds.
Proof.
  induction l as [|p r IH]; intros e ds H; cbn in H.
  - inversion H. constructor.
  - destruct (dget (fl_i e) p) as [d|] eqn:E; [|discriminate]. destruct (get_ports e r) as [ds'|] eqn:E'; [|discriminate].
    inversion H. constructor; [exact E|apply IH; exact E'].
Qed.

(* an element that fills at least one row *)
Definition has_rows (k : kind) : Prop := match k with KCooling n => (0 < n)%nat | _ => True end.
(* every element: inputs untouched, nothing but its own output ports written, all of its output ports filled *)
Theorem C43_element_ports : forall m sp k e e', setup_ports m sp k e = Ok e' -> fl_i e' = fl_i e /\
  (forall p, ~ In p (out_ports k) -> dget (fl_o e') p = dget (fl_o e) p) /\
  (has_rows k -> forall p, In p (out_ports k) -> dget (fl_o e') p <> None).
Proof.
  assert (One : forall e src port e', copy_flow e src port = Ok e' -> fl_i e' = fl_i e /\ (forall p, ~ In p [port] -> dget (fl_o e') p = dget (fl_o e) p) /\
    (forall p, In p [port] -> dget (fl_o e') p <> None)).
  { intros e src port e' H. apply copy_flow_inv in H as [d [-> _]]. destruct (put_stored e port d) as [H1 [H2 H3]]. split; [exact H1|split].
    - intros p Hp. apply H3. intros ->. apply Hp. left. reflexivity.
    - intros p [<-|[]]. rewrite H2. discriminate. }
  assert (Ini : forall e port x e', init_output_flow e port x = Ok e' -> fl_i e' = fl_i e /\ (forall p, ~ In p [port] -> dget (fl_o e') p = dget (fl_o e) p) /\
    (forall p, In p [port] -> dget (fl_o e') p <> None)).
  { intros e port x e' H. destruct x as [r|d]; [|apply (One e (Adder (Ok d)) port e' H)]. exact (One e (Adder r) port e' H). }
  assert (Many : forall e src ports e', copies e src ports = Ok e' -> fl_i e' = fl_i e /\ (forall p, ~ In p ports -> dget (fl_o e') p = dget (fl_o e) p) /\
    (forall p, In p ports -> dget (fl_o e') p <> None)).
  { intros e src ports e' H. destruct (copies_inv _ _ _ _ H) as [H1 [H2 H3]]. split; [exact H1|split; [exact H2|]].
    intros p Hp. destruct H3 as [d [_ H3]]; [intros ->; destruct Hp|]. rewrite (H3 p Hp). discriminate. }
  intros m sp k e e' H. destruct k as [ |bs| |c [r|]|fuel| |bs|n]; cbn [setup_ports out_ports] in *.
  - destruct (One _ _ _ _ H) as [A [B C]]. auto.
  - destruct (Many _ _ _ _ H) as [A [B C]]. auto.
  - destruct (Many _ _ _ _ H) as [A [B C]]. auto.
  - destruct (Ini _ _ _ _ H) as [A [B C]]. auto.
  - destruct (Ini _ _ _ _ H) as [A [B C]]. auto.
  - destruct (dget (fl_i e) "Fl_I"); [|discriminate]. destruct (One _ _ _ _ H) as [A [B C]]. auto.
  - destruct (get_ports e ["Fl_I1"; "Fl_I2"]) as [[|d1 [|d2 [|? ?]]]|]; try discriminate. destruct (One _ _ _ _ H) as [A [B C]]. auto.
  - destruct (dget (fl_i e) "Fl_I"); [|discriminate]. destruct (get_ports e bs); [|discriminate]. destruct (One _ _ _ _ H) as [A [B C]]. auto.
  - destruct (Many _ _ _ _ H) as [A [B C]]. split; [exact A|split].
    + intros p Hp. apply B. intros X. apply repeat_spec in X. apply Hp. left. symmetry. exact X.
    + intros Hn p [<-|[]]. apply C. cbn in Hn. destruct n; [lia|]. left. reflexivity.
Qed.
Print Assumptions C43_element_ports.
(* the cooled turbine never defines the ports of its rows: the name is a raw string, so the row number is not put into it *)
Theorem C43_cooling_rows_refuted : forall m sp n e e', setup_ports m sp (KCooling n) e = Ok e' ->
  (forall i, dget (fl_o e) ("row_" ++ i ++ ".Fl_O")%string = None) -> dget (fl_o e') "row_0.Fl_O" = None /\ dget (fl_o e') "row_1.Fl_O" = None.
Proof.
  intros m sp n e e' H H0. destruct (C43_element_ports m sp (KCooling n) e e' H) as [_ [B _]].
  rewrite !B; [split; [apply (H0 "0")|apply (H0 "1")]|intros [X|[]]; discriminate X|intros [X|[]]; discriminate X].
Qed.
Print Assumptions C43_cooling_rows_refuted.

(* ---------- C50 ---------- *)
Lemma cea_keys o m : cea_port_data o = Ok m ->
  (forall d, o_inflow o = Some d -> incl (dkeys d) (dkeys m)) /\
  match o_mix o with
  | Reactants rs => forall r d, In r rs -> dget (reactants (o_spec o)) r = Some d -> incl (dkeys d) (dkeys m)
  | Flows ds => forall d, In d ds -> incl (dkeys d) (dkeys m)
  end.
Proof.
  intros H. unfold cea_port_data in H. destruct (o_mix o) as [rs|ds].
  - apply add_reactants_spec in H. destruct H as [_ [H _]].
    split; [intros d Hd x Hx; rewrite Hd in H; apply H; left; exact Hx|].
    intros r d Hr Hd x Hx. apply H. right. exists r, d. auto.
  - inversion H as [H']. clear H H'. split.
    + intros d Hd x Hx. apply (proj1 (fold_dupdate_spec _ _)). rewrite Hd. left. exact Hx.
    + intros d Hd x Hx. apply (proj1 (fold_dupdate_spec _ _)). right. exists d. auto.
Qed.

Lemma all_dicts_inv l : forall ds, all_dicts l = Some ds -> l = map Some ds.
Proof.
  induction l as [|[d|] r IH]; intros ds H; cbn in H; try discriminate; [inversion H; reflexivity|].
  destruct (all_dicts r) as [ds'|]; [|discriminate]. inversion H. cbn. f_equal. apply IH. reflexivity.
Qed.
(* the data of one output port names every chemical element of d *)
Definition keeps (d : dict R) (o : option pdata) : Prop := exists d', o = Some (Some d') /\ incl (dkeys d) (dkeys d').
(* one element, CEA: every output port names every chemical element that any of its input ports names; a combustor's output also
   names those of its fuel, a start's those of its reactant *)
Theorem C50_element : forall sp k e e', setup_ports M_CEA sp k e = Ok e' -> has_rows k ->
  forall p, In p (out_ports k) ->
  (forall i d, In i (in_ports k) -> dget (fl_i e) i = Some (Some d) -> keeps d (dget (fl_o e') p)) /\
  match k with
  | KCombustor r | KStart _ (Some r) => forall d, dget (reactants sp) r = Some d -> keeps d (dget (fl_o e') p)
  | KStart (Some d) None => keeps d (dget (fl_o e') p)
  | _ => True
  end.
Proof.
  assert (Same : forall d (o : option pdata), o = Some (Some d) -> keeps d o) by (intros d o ->; exists d; split; [reflexivity|apply incl_refl]).
  assert (Many : forall e src ports e', copies e src ports = Ok e' -> forall p i d, In p ports -> In i [src] -> dget (fl_i e) i = Some (Some d) -> keeps d (dget (fl_o e') p)).
  { intros e src ports e' H p i d Hp [<-|[]] Hd. destruct (copies_inv _ _ _ _ H) as [_ [_ H3]].
    destruct H3 as [d' [Hd' H3]]; [intros ->; destruct Hp|]. apply Same. rewrite (H3 p Hp). congruence. }
  intros sp k e e' H Hr p Hp. destruct k as [ |bs| |c [r|]|fuel| |bs|n]; cbn [setup_ports out_ports in_ports] in *.
  - split; [|exact Logic.I]. intros i d Hi Hd. exact (Many e "Fl_I" ["Fl_O"] e' ltac:(cbn [copies]; rewrite H; reflexivity) p i d Hp Hi Hd).
  - split; [|exact Logic.I]. intros i d Hi Hd. exact (Many _ _ _ _ H p i d Hp Hi Hd).
  - split; [|exact Logic.I]. intros i d Hi Hd. exact (Many _ _ _ _ H p i d Hp Hi Hd).
  - split; [intros i d []|]. destruct Hp as [<-|[]].
    enough (X : forall d, dget (reactants sp) r = Some d -> keeps d (dget (fl_o e') "Fl_O")) by (destruct c; exact X). intros d Hd.
    cbn [init_output_flow react_data] in H. destruct (cea_port_data _) as [m|] eqn:E; [|discriminate]. inversion H; subst e'. cbn [put fl_o].
    rewrite dget_dset_same. exists m. split; [reflexivity|]. apply (proj2 (cea_keys _ _ E) r d); [left; reflexivity|exact Hd].
  - split; [intros i d []|]. destruct Hp as [<-|[]]. destruct c as [d|]; [|exact Logic.I]. inversion H. cbn [put fl_o].
    apply Same, dget_dset_same.
  - destruct (dget (fl_i e) "Fl_I") as [d0|] eqn:E0; [|discriminate]. destruct Hp as [<-|[]].
    apply copy_flow_inv in H as [d1 [-> H1]]. cbn [put fl_o]. rewrite dget_dset_same. cbn [react_data] in H1.
    destruct (cea_port_data _) as [m|] eqn:E; [|discriminate]. inversion H1; subst d1. split.
    + intros i d [<-|[]] Hd. exists m. split; [reflexivity|]. apply (proj1 (cea_keys _ _ E)). cbn. congruence.
    + intros d Hd. exists m. split; [reflexivity|]. apply (proj2 (cea_keys _ _ E) fuel d); [left; reflexivity|exact Hd].
  - split; [|exact Logic.I]. destruct (get_ports e ["Fl_I1"; "Fl_I2"]) as [[|d1 [|d2 [|? ?]]]|] eqn:G; try discriminate.
    apply get_ports_inv in G. inversion G as [|? ? ? ? G1 G']; subst. inversion G' as [|? ? ? ? G2 _]; subst.
    apply copy_flow_inv in H as [dm [-> H1]]. destruct Hp as [<-|[]]. cbn [put fl_o]. rewrite dget_dset_same. cbn [mix_data] in H1.
    destruct (all_dicts [d2]) as [ds|] eqn:A; [|discriminate]. apply all_dicts_inv in A. destruct (cea_port_data _) as [m|] eqn:E; [|discriminate].
    inversion H1; subst dm. intros i d Hi Hd. exists m. split; [reflexivity|]. destruct Hi as [<-|[<-|[]]].
    + apply (proj1 (cea_keys _ _ E)). cbn. congruence.
    + apply (proj2 (cea_keys _ _ E) d). destruct ds as [|x [|? ?]]; try discriminate A. left. inversion A. congruence.
  - split; [|exact Logic.I]. destruct (dget (fl_i e) "Fl_I") as [d0|] eqn:E0; [|discriminate].
    destruct (get_ports e bs) as [ds0|] eqn:G; [|discriminate]. apply get_ports_inv in G.
    apply copy_flow_inv in H as [dm [-> H1]]. destruct Hp as [<-|[]]. cbn [put fl_o]. rewrite dget_dset_same. cbn [mix_data] in H1.
    destruct (all_dicts ds0) as [ds|] eqn:A; [|discriminate]. apply all_dicts_inv in A. subst ds0. destruct (cea_port_data _) as [m|] eqn:E; [|discriminate].
    inversion H1; subst dm. intros i d Hi Hd. exists m. split; [reflexivity|]. destruct Hi as [<-|Hi].
    + apply (proj1 (cea_keys _ _ E)). cbn. congruence.
    + apply (proj2 (cea_keys _ _ E) d). cbn [o_mix]. clear - G Hi Hd.
      remember (map Some ds) as l eqn:El. revert ds El. induction G as [|q x bs' l' H1 G' IH]; intros ds El; [destruct Hi|].
      destruct ds as [|y ds']; [discriminate|]. inversion El; subst. destruct Hi as [->|Hi]; [left; congruence|right; apply (IH Hi); reflexivity].
  - split; [|exact Logic.I]. intros i d Hi Hd. refine (Many _ _ _ _ H p i d _ Hi Hd). destruct Hp as [<-|[]]. cbn in Hr. destruct n; [lia|]. left. reflexivity.
Qed.
Print Assumptions C50_element.

(* port b.p' is fed by port a.p, directly or through any number of elements; each link goes into a port the element reads and
   that has no other source *)
Inductive feeds (ops : list build_op) (kinds : string -> kind) (a p : string) : string -> string -> Prop :=
| feeds_self : feeds ops kinds a p a p
| feeds_next b q c i r : feeds ops kinds a p b q -> connected ops b q c i -> In c (elements_of ops) ->
    (forall b' q', connected ops b' q' c i -> b' = b /\ q' = q) -> In i (in_ports (kinds c)) -> has_rows (kinds c) -> In r (out_ports (kinds c)) ->
    feeds ops kinds a p c r.
(* the whole cycle: what setup stored at the ports *)
Theorem C50_network : forall sp kinds ops fi0 fo0 fuel s, wf_ops ops -> acyclic ops ->
  setup (Model_Graph.build ops) (port_behaviour M_CEA sp kinds) fuel fi0 fo0 = Some (Ok s) ->
  forall a p b q d, feeds ops kinds a p b q -> dget (fo s a) p = Some (Some d) -> keeps d (dget (fo s b) q).
Proof.
  intros sp kinds ops fi0 fo0 fuel s W A H a p b q d F Hd.
  destruct (C03_acyclic_all_configured _ ops _ fi0 fo0 fuel s W A H) as [_ [Hbeh [Hconn _]]].
  induction F as [|b q c i r F IH Hc Hin Huniq Hi Hrow Hr].
  - exists d. split; [exact Hd|apply incl_refl].
  - destruct IH as [d' [Hd' Hk]]. destruct (Hconn b q c i Hc Hin Huniq) as [x [Hx1 Hx2]].
    assert (x = Some d') by congruence. subst x. pose proof (Hbeh c Hin) as Hb. unfold port_behaviour in Hb.
    destruct (setup_ports M_CEA sp (kinds c) (mkElem (fi s c) (fo0 c))) as [e'|] eqn:E; [|discriminate]. inversion Hb as [Hb'].
    destruct (proj1 (C50_element sp (kinds c) _ e' E Hrow r Hr) i d' Hi) as [d2 [Hd2 Hk2]]; [exact Hx2|].
    exists d2. split; [exact Hd2|]. intros y Hy. apply Hk2, Hk, Hy.
Qed.
Print Assumptions C50_network.
(* the elements that mix: a combustor, a mixer, a turbine (with or without bleeds), a start with a reactant *)
Definition mixes (k : kind) : bool := match k with KCombustor _ | KMixer | KTurbine _ | KStart _ (Some _) => true | _ => false end.
(* with the tabular method the port after an adder holds None: nothing is announced downstream *)
Theorem C50_tabular : forall sp k e e', mixes k = true -> setup_ports M_TABULAR sp k e = Ok e' -> dget (fl_o e') "Fl_O" = Some None.
Proof.
  intros sp k e e' Hk H. destruct k as [|bs| |c [r|]|fuel| |bs|n]; try discriminate Hk; cbn [setup_ports] in H.
  - cbn [init_output_flow] in H. unfold react_data, tab_port_data in H. cbn [t_mode] in H. destruct (str_in _ _); inversion H. cbn [put fl_o]. apply dget_dset_same.
  - destruct (dget (fl_i e) "Fl_I"); [|discriminate].
    apply copy_flow_inv in H as [d [-> H]]. cbn [put fl_o]. rewrite dget_dset_same. unfold react_data, tab_port_data in H. cbn [t_mode] in H.
    destruct (str_in _ _); inversion H. reflexivity.
  - destruct (get_ports e ["Fl_I1"; "Fl_I2"]) as [[|d1 [|d2 [|]]]|]; try discriminate.
    apply copy_flow_inv in H as [d [-> H]]. cbn [put fl_o]. rewrite dget_dset_same. inversion H. reflexivity.
  - destruct (dget (fl_i e) "Fl_I"); [|discriminate]. destruct (get_ports e bs); [|discriminate].
    apply copy_flow_inv in H as [d [-> H]]. cbn [put fl_o]. rewrite dget_dset_same. inversion H. reflexivity.
Qed.
Print Assumptions C50_tabular.
Example C50_tabular_ex sp : exists e', setup_ports M_TABULAR sp (KCombustor "FAR") (mkElem [("Fl_I", Some TAB_AIR_FUEL_COMPOSITION)] []) = Ok e'.
Proof. eexists. cbn. reflexivity. Qed.

(* a start, a combustor and a nozzle in a row, with one known fuel *)
Definition ex_ops : list build_op :=
  [AddSubsystem "start" true; AddSubsystem "burner" true; AddSubsystem "nozz" true; ConnectFlow "start.Fl_O" "burner.Fl_I"; ConnectFlow "burner.Fl_O" "nozz.Fl_I"].
Definition ex_kinds (air : dict R) (n : string) : kind :=
  if String.eqb n "start" then KStart (Some air) None else if String.eqb n "burner" then KCombustor "fuel" else KPass.
Example C50_example : forall c h n o : R, exists s : state pdata,
  setup (Model_Graph.build ex_ops) (port_behaviour M_CEA (mkSpec [] [] [("fuel", [("C", c); ("H", h)])]) (ex_kinds [("N", n); ("O", o)])) 20 (fun _ => []) (fun _ => []) = Some (Ok s) /\
  dget (fo s "start") "Fl_O" = Some (Some [("N", n); ("O", o)]) /\
  dget (fo s "nozz") "Fl_O" = Some (Some [("N", n); ("O", o); ("C", c); ("H", h)]).
Proof. intros c h n o. eexists. vm_compute. repeat split; reflexivity. Qed.
Example C50_example_feeds air : wf_ops ex_ops -> feeds ex_ops (ex_kinds air) "start" "Fl_O" "nozz" "Fl_O".
Proof.
  intros W.
  assert (U : forall b q c i b' q', connected ex_ops b q c i -> connected ex_ops b' q' c i -> b' = b /\ q' = q).
  { intros b q c i b' q' H H'.
    destruct (Proofs_GraphApi.connected_nodes ex_ops W b q c i H) as [H1 [H2 [H3 H4]]].
    destruct (Proofs_GraphApi.connected_nodes ex_ops W b' q' c i H') as [H1' [H2' _]].
    destruct (C07_port_of_element b q H1 H2) as [P1 P2]. destruct (C07_port_of_element b' q' H1' H2') as [P1' P2'].
    unfold connected, ex_ops in H, H'. set (x := path b q) in *. set (y := path c i) in *. set (z := path b' q') in *. clearbody x y z.
    cbn [In] in H, H'.
    destruct H as [H|[H|[H|[H|[H|[]]]]]]; inversion H; subst x y; destruct H' as [H'|[H'|[H'|[H'|[H'|[]]]]]]; inversion H'; subst z; vm_compute in P1, P2, P1', P2'; split; congruence. }
  assert (C1 : connected ex_ops "start" "Fl_O" "burner" "Fl_I") by (right; right; right; left; reflexivity).
  assert (C2 : connected ex_ops "burner" "Fl_O" "nozz" "Fl_I") by (do 4 right; left; reflexivity).
  apply (feeds_next ex_ops (ex_kinds air) "start" "Fl_O" "burner" "Fl_O" "nozz" "Fl_I" "Fl_O").
  - apply (feeds_next ex_ops (ex_kinds air) "start" "Fl_O" "start" "Fl_O" "burner" "Fl_I" "Fl_O").
    + apply feeds_self.
    + exact C1.
    + right; left; reflexivity.
    + intros b' q' H. exact (U _ _ _ _ _ _ C1 H).
    + left; reflexivity.
    + exact Logic.I.
    + left; reflexivity.
  - exact C2.
  - right; right; left; reflexivity.
  - intros b' q' H. exact (U _ _ _ _ _ _ C2 H).
  - left; reflexivity.
  - exact Logic.I.
  - left; reflexivity.
Qed.
