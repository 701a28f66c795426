(* C70: what Cycle.setup (mp_cycle.py:98-150) leaves on the ports of a CEA engine is exactly what its elements then build their mixing components
   and stations from; so the conservation of chemical elements (C66) holds of every engine whose setup returns. *)
From Coq Require Import Permutation Lia Relations.
From Verif Require Import Lib_R Lib_Py Lib_Loop Spec_Mix Spec_Wire Model_Thermo Prop_Thermo Prop_Elem1 Model_ThermoAdd Proofs_ThermoAdd Prop_Mix Model_Elem1 Model_Elem2 Prop_Station.
From Verif Require Prop_Species Spec_Flow Model_Graph Proofs_GraphApi Prop_Graph.
From Verif Require Import Model_Ports Prop_Ports Model_Cycle Prop_Cycle Prop_Elements.
Open Scope string_scope. Open Scope list_scope. Open Scope R_scope.

(* the API calls that build a cycle: add_subsystem for every element, then pyc_connect_flow *)
Definition ops_of (els : list (string * ekind)) (links : list link) : list Model_Graph.build_op :=
  map (fun nk => Model_Graph.AddSubsystem (fst nk) true) els ++ map (fun l => Model_Graph.ConnectFlow (path (l_src l)) (path (l_tgt l))) links.
(* names as OpenMDAO accepts them; no element uses one port name for an inlet and an outlet *)
Definition names_ok (els : list (string * ekind)) : Prop :=
  forall n k, In (n, k) els -> no_char "." n = true /\ (forall p, In p (e_in k) \/ In p (e_out k) -> no_char "." p = true) /\ (forall p, In p (e_in k) -> ~ In p (e_out k)).
(* the classes behind the names: starts with their composition and reactant options *)
Definition classes_ok (fuel : string -> string) (kinds : string -> kind) (els : list (string * ekind)) : Prop :=
  forall n k, In (n, k) els -> if starts k then exists c r, kinds n = KStart c r else kinds n = kind_of (fuel n) k.
(* setup returned with the port data in s *)
Definition set_up_as sp kinds els links (s : Model_Graph.state pdata) : Prop :=
  exists m, Model_Graph.setup (Model_Graph.build (ops_of els links)) (port_behaviour M_CEA sp kinds) m (fun _ => []) (fun _ => []) = Some (Ok s).
(* the composition dictionary stored at a port *)
Definition stored_at (d : dict pdata) (p : string) : dict R := match dget d p with Some (Some c) => c | _ => [] end.
Definition lab_of els (s : Model_Graph.state pdata) (p : port) : dict R :=
  if used p (all_ports e_out els) then stored_at (Model_Graph.fo s (fst p)) (snd p)
  else if used p (all_ports e_in els) then stored_at (Model_Graph.fi s (fst p)) (snd p) else [].
(* the mixing components are built from the stored data *)
Definition adders_built sp fuel (lab : port -> dict R) (els : list (string * ekind)) : Prop :=
  forall n k a o, In (n, k) els -> adder_opts sp fuel lab n k = Some (a, o) -> exists c, a = ACea c /\ cea_setup o = Ok c.
(* data: compositions, reactants and the default air have distinct keys, each of them an element with a weight that some product contains *)
Definition good (sp : spec_data) (d : dict R) : Prop := dwf d /\ forall x, In x (dkeys d) -> weight sp x <> 0 /\ Prop_Species.known sp x.
Definition good_data sp kinds (els : list (string * ekind)) : Prop :=
  good sp CEA_AIR_COMPOSITION /\ (forall r d, dget (reactants sp) r = Some d -> good sp d) /\
  (forall n k c r, In (n, k) els -> kinds n = KStart (Some c) r -> good sp c).

Lemma same_kind (l : list (string * ekind)) n k k' : NoDup (map fst l) -> In (n, k) l -> In (n, k') l -> k = k'.
Proof.
  induction l as [|[m a] l IH]; intros N A B; [destruct A|]. cbn in N. inversion N as [|? ? X Y]; subst. destruct A as [A|A], B as [B|B]; [congruence| | |auto]; exfalso; apply X; [injection A as -> _|injection B as -> _]; apply in_map_iff; [exists (n, k')|exists (n, k)]; auto.
Qed.
(* two behaviours that agree on the calls made lead to the same run *)
Lemma process_calls {D} c (b : @Model_Graph.behaviour D) s n q s' : Model_Graph.process c b s n q = Ok s' -> incl (Model_Graph.calls s) (Model_Graph.calls s').
Proof.
  unfold Model_Graph.process. repeat (match goal with
    | |- Err _ = Ok _ -> _ => discriminate
    | |- Ok _ = Ok _ -> _ => intros E; injection E as <-; cbn; first [apply incl_refl | apply incl_tl, incl_refl]
    | |- (if ?x then _ else _) = _ -> _ => destruct x
    | |- match ?x with _ => _ end = _ -> _ => destruct x
    end; cbv zeta).
Qed.
Lemma loop_calls {D} c (b : @Model_Graph.behaviour D) m : forall s s', Model_Graph.loop c b m s = Some (Ok s') -> incl (Model_Graph.calls s) (Model_Graph.calls s').
Proof.
  induction m as [|m IH]; intros s s' H; cbn [Model_Graph.loop] in H; destruct (Model_Graph.queue s) as [|n q]; try discriminate H; try (injection H as <-; apply incl_refl).
  destruct (Model_Graph.process c b s n q) as [t|] eqn:E; [|discriminate]. eapply incl_tran; [exact (process_calls _ _ _ _ _ _ E)|apply IH; exact H].
Qed.
Lemma same_run {D} c (b b' : @Model_Graph.behaviour D) m : forall s s', Model_Graph.loop c b m s = Some (Ok s') -> (forall n d do_, In (n, d) (Model_Graph.calls s') -> b n d do_ = b' n d do_) -> Model_Graph.loop c b' m s = Some (Ok s').
Proof.
  induction m as [|m IH]; intros s s' H A; cbn [Model_Graph.loop] in H |- *; destruct (Model_Graph.queue s) as [|n q]; try discriminate H; try exact H.
  destruct (Model_Graph.process c b s n q) as [t|] eqn:E; [|discriminate]. assert (E' : Model_Graph.process c b' s n q = Ok t); [|rewrite E'; apply IH; assumption].
  pose proof (loop_calls _ _ _ _ _ H) as Inc. unfold Model_Graph.process in E |- *. cbv zeta in E |- *.
  destruct (Model_Graph.a_type (Model_Graph.get_attr c n)) as [ty|]; [|exact E]. destruct (negb (Model_Graph.ready c (Model_Graph.visited s) n)); [exact E|]. destruct (str_in n (Model_Graph.visited s)); [exact E|]. destruct ty; try exact E.
  destruct (negb (Model_Graph.is_elem c n)); [exact E|]. rewrite <- A; [exact E|]. apply Inc. destruct (b n (Model_Graph.fi s n) (Model_Graph.fo s n)); [|discriminate]. injection E as <-. left. reflexivity.
Qed.

Section SETUP.
Variables (sp : spec_data) (fuel : string -> string) (kinds : string -> kind) (els : list (string * ekind)) (links : list link) (rank : string -> nat).
Hypothesis (N : network els links) (Op : open_in els links = []) (Nm : names_ok els) (Dn : downstream links rank) (Cl : classes_ok fuel kinds els).
Notation ops := (ops_of els links).
Lemma conn_iff a p b q : no_char "." a = true -> no_char "." p = true -> no_char "." b = true -> no_char "." q = true ->
  (Spec_Flow.connected ops a p b q <-> exists l, In l links /\ l_src l = (a, p) /\ l_tgt l = (b, q)).
Proof.
  intros Ha Hp Hb Hq. unfold Spec_Flow.connected, ops_of. rewrite in_app_iff. split.
  - intros [H|H]; apply in_map_iff in H as (l & E & Hl); [discriminate|]. exists l. split; [exact Hl|].
    destruct N as (_ & _ & L & _ & _). destruct (L l Hl) as [L1 L2]. apply in_ports in L1 as (k1 & K1 & P1). apply in_ports in L2 as (k2 & K2 & P2).
    destruct (Nm _ _ K1) as (n1 & n2 & _). destruct (Nm _ _ K2) as (m1 & m2 & _).
    injection E as E1 E2. unfold path in E1, E2.
    destruct (Prop_Graph.C07_port_of_element (fst (l_src l)) (snd (l_src l)) n1 (n2 _ (or_intror P1))) as [U1 U2]. destruct (Prop_Graph.C07_port_of_element a p Ha Hp) as [V1 V2].
    destruct (Prop_Graph.C07_port_of_element (fst (l_tgt l)) (snd (l_tgt l)) m1 (m2 _ (or_introl P2))) as [X1 X2]. destruct (Prop_Graph.C07_port_of_element b q Hb Hq) as [Y1 Y2].
    unfold Spec_Flow.path in *. rewrite E1 in U1, U2. rewrite E2 in X1, X2. split; apply injective_projections; cbn [fst snd]; congruence.
  - intros (l & Hl & E1 & E2). right. apply in_map_iff. exists l. split; [|exact Hl]. rewrite E1, E2. reflexivity.
Qed.
Lemma els_of : Spec_Flow.elements_of ops = map fst els.
Proof.
  unfold ops_of, Spec_Flow.elements_of. rewrite flat_map_app.
  replace (flat_map _ (map (fun l => Model_Graph.ConnectFlow (path (l_src l)) (path (l_tgt l))) links)) with (@nil string) by (clear; induction links; [reflexivity|assumption]).
  rewrite app_nil_r. clear. induction els as [|[n k] r IH]; [reflexivity|]. cbn. rewrite IH. reflexivity.
Qed.
Lemma wf : Spec_Flow.wf_ops ops.
Proof.
  pose proof N as (N1 & _ & L & _ & _). constructor.
  - intros n b H. unfold ops_of in H. apply in_app_or in H as [H|H]; apply in_map_iff in H as ([n' k] & E & Hk); [|discriminate]. injection E as <- <-. exact (proj1 (Nm _ _ Hk)).
  - rewrite els_of. exact N1.
  - intros a b H. unfold ops_of in H. apply in_app_or in H as [H|H]; apply in_map_iff in H as (l & E & Hl); [discriminate|]. injection E as <- <-.
    destruct (L l Hl) as [L1 L2]. apply in_ports in L1 as (k1 & K1 & P1). apply in_ports in L2 as (k2 & K2 & P2). destruct (Nm _ _ K1) as (n1 & n2 & _). destruct (Nm _ _ K2) as (m1 & m2 & _).
    exists (fst (l_src l)), (snd (l_src l)), (fst (l_tgt l)), (snd (l_tgt l)). repeat split; auto.
  - intros a b a' b' H H' E. unfold ops_of in H, H'. apply in_app_or in H as [H|H]; apply in_map_iff in H as (l & Q & Hl); [discriminate|]. apply in_app_or in H' as [H'|H']; apply in_map_iff in H' as (l' & Q' & Hl'); [discriminate|].
    injection Q as Q1 _. injection Q' as _ Q2. subst a b'. destruct (L l Hl) as [L1 _]. destruct (L l' Hl') as [_ L2].
    apply in_ports in L1 as (k1 & K1 & P1). apply in_ports in L2 as (k2 & K2 & P2). destruct (Nm _ _ K1) as (n1 & n2 & n3). destruct (Nm _ _ K2) as (m1 & m2 & _).
    destruct (Prop_Graph.C07_port_of_element (fst (l_src l)) (snd (l_src l)) n1 (n2 _ (or_intror P1))) as [U1 U2].
    destruct (Prop_Graph.C07_port_of_element (fst (l_tgt l')) (snd (l_tgt l')) m1 (m2 _ (or_introl P2))) as [X1 X2].
    unfold path in E. unfold Spec_Flow.path in *. rewrite E in U1, U2.
    assert (Ef : fst (l_src l) = fst (l_tgt l')) by congruence. assert (Eq : snd (l_src l) = snd (l_tgt l')) by congruence.
    rewrite Ef in K1. assert (k1 = k2) as ->.
    { clear - K1 K2 N1. revert K1 K2. generalize (fst (l_tgt l')) as n. intros n. induction els as [|[m k] r IH]; intros A B; [destruct A|]. cbn in N1. inversion N1 as [|? ? X Y]; subst.
      destruct A as [A|A], B as [B|B]; [congruence| | |apply IH; auto]; exfalso; apply X; [injection A as -> _|injection B as -> _]; apply in_map_iff; [exists (n, k2)|exists (n, k1)]; auto. }
    rewrite Eq in P1. exact (n3 _ P2 P1).
Qed.
Lemma acyc : Spec_Flow.acyclic ops.
Proof.
  assert (F : forall a b, Spec_Flow.flows ops a b -> (rank a < rank b)%nat).
  { intros a b (p & q & H). destruct (Proofs_GraphApi.connected_nodes ops wf a p b q H) as (A1 & A2 & A3 & A4).
    apply (conn_iff a p b q A1 A2 A3 A4) in H as (l & Hl & E1 & E2). specialize (Dn l Hl). rewrite E1, E2 in Dn. exact Dn. }
  assert (T : forall a b, clos_trans _ (Spec_Flow.flows ops) a b -> (rank a < rank b)%nat) by (induction 1; [auto|lia]).
  intros a H. apply T in H. lia.
Qed.
Hypothesis (Gd : good_data sp kinds els).
Lemma good_update d d2 : good sp d -> good sp d2 -> good sp (dupdate d d2).
Proof. intros [A1 A2] [B1 B2]. split; [apply dwf_dupdate; auto|]. intros x Hx. apply dupdate_keys in Hx as [Hx|Hx]; auto. Qed.
Lemma good_mix o m : o_spec o = sp -> cea_port_data o = Ok m -> (forall d, o_inflow o = Some d -> good sp d) ->
  match o_mix o with Reactants _ => True | Flows l => forall d, In d l -> good sp d end -> good sp m.
Proof.
  intros Es H Hi Hm. destruct Gd as (G1 & G2 & _). unfold cea_port_data in H.
  assert (G0 : good sp (match o_inflow o with Some d => d | None => CEA_AIR_COMPOSITION end)) by (destruct (o_inflow o); auto).
  replace (match o_inflow o with None => CEA_AIR_COMPOSITION | Some d => d end) with (match o_inflow o with Some d => d | None => CEA_AIR_COMPOSITION end) in H by (destruct (o_inflow o); reflexivity).
  set (d0 := match o_inflow o with Some d => d | None => CEA_AIR_COMPOSITION end) in *. clearbody d0. destruct (o_mix o) as [l|l].
  - rewrite Es in H. revert d0 G0 H. induction l as [|r l IH]; cbn [add_reactants]; intros d0 G0 H; [injection H as <-; exact G0|].
    destruct (dget (reactants sp) r) as [d|] eqn:E; [|discriminate]. apply (IH (dupdate d0 d)); [apply good_update; eauto|exact H].
  - injection H as <-. revert d0 G0. induction l as [|d l IH]; cbn [fold_left]; intros d0 G0; [exact G0|]. apply IH; [intros; apply Hm; right; auto|apply good_update; auto; apply Hm; left; auto].
Qed.
Lemma all_dicts_some (ds : list (dict R)) : all_dicts (map Some ds) = Some ds.
Proof. induction ds as [|d r IH]; [reflexivity|]. cbn. rewrite IH. reflexivity. Qed.
(* an element whose inlets were handed good data leaves good data on its outlets *)
Lemma outs_good n k (di do_ : dict pdata) e' : In (n, k) els -> (forall p, In p (e_in k) -> exists d, dget di p = Some (Some d) /\ good sp d) -> setup_ports M_CEA sp (kinds n) (mkElem di do_) = Ok e' ->
  forall p, In p (e_out k) -> exists d, dget (Model_Ports.fl_o e') p = Some (Some d) /\ good sp d.
Proof.
  intros Hk Hin R.
  pose proof (Cl n k Hk) as Ck. destruct Gd as (G1 & G2 & G3). intros p Hp.
  assert (One : forall x y, copy_flow (mkElem di do_) (Port x) y = Ok e' -> In x (e_in k) -> p = y -> exists d, dget (Model_Ports.fl_o e') p = Some (Some d) /\ good sp d).
  { intros x y E Hx ->. apply copy_flow_inv in E as (d & -> & E). cbn in E. destruct (Hin x Hx) as (c & C1 & C2). rewrite dget_put. exists c. split; [congruence|exact C2]. }
  assert (Many : forall x ys, copies (mkElem di do_) x ys = Ok e' -> In x (e_in k) -> In p ys -> exists d, dget (Model_Ports.fl_o e') p = Some (Some d) /\ good sp d).
  { intros x ys E Hx Hy. apply copies_inv in E as (_ & _ & E). destruct E as (d & E1 & E2); [intros ->; destruct Hy|]. destruct (Hin x Hx) as (c & C1 & C2). cbn in E1. exists c. rewrite (E2 p Hy). split; [congruence|exact C2]. }
  assert (Add : forall o, o_spec o = sp -> (forall d, o_inflow o = Some d -> good sp d) -> match o_mix o with Reactants _ => True | Flows l => forall d, In d l -> good sp d end ->
    copy_flow (mkElem di do_) (Adder (match cea_port_data o with Ok d => Ok (Some d) | Err x => Err x end)) "Fl_O" = Ok e' -> p = "Fl_O" -> exists d, dget (Model_Ports.fl_o e') p = Some (Some d) /\ good sp d).
  { intros o Es Hi Hm E ->. apply copy_flow_inv in E as (d & -> & E). rewrite dget_put. destruct (cea_port_data o) as [m|] eqn:C; [|discriminate]. injection E as <-. exists m. split; [reflexivity|]. exact (good_mix o m Es C Hi Hm). }
  destruct k as [ad|ad| |st|st wm ex|st|bs st|a st|mp rs bs st|mp a bs st|nt lc|a one]; cbn [starts] in Ck.
  1-3: (destruct Ck as (c & [rr|] & Ek); rewrite Ek in R; cbn [setup_ports init_output_flow] in R; destruct Hp as [<-|[]];
    [unfold react_data in R; destruct (cea_port_data _) as [m|] eqn:C; [|discriminate]; injection R as <-; rewrite dget_put; exists m; split; [reflexivity|];
     refine (good_mix _ m _ C _ _); [reflexivity| |exact Logic.I]; intros d Ed; cbn in Ed; subst c; eapply G3; [exact Hk|exact Ek]
    |injection R as <-; rewrite dget_put; destruct c as [c|]; [exists c; split; [reflexivity|eapply G3; [exact Hk|exact Ek]]|exists CEA_AIR_COMPOSITION; split; [reflexivity|exact G1]]]).
  all: rewrite Ck in R; cbn [kind_of setup_ports e_in e_out] in *.
  - apply (One _ _ R); [left; auto|destruct Hp as [<-|[]]; auto].
  - apply (One _ _ R); [left; auto|destruct Hp as [<-|[]]; auto].
  - apply (Many _ _ R); [left; auto|exact Hp].
  - apply (Many _ _ R); [left; auto|exact Hp].
  - destruct (Hin "Fl_I" ltac:(left; auto)) as (c & C1 & C2). cbn [Model_Ports.fl_i] in R. rewrite C1 in R. cbn [react_data] in R.
    refine (Add (mkCea sp (Some c) (Reactants [fuel n]) ["mix"]) eq_refl _ _ R _); [intros d Ed; injection Ed as <-; exact C2|exact Logic.I|destruct Hp as [<-|[]]; auto].
  - apply (Many _ _ R); [left; auto|exact Hp].
  - destruct (Hin "Fl_I" ltac:(left; auto)) as (c & C1 & C2). cbn [Model_Ports.fl_i] in R. rewrite C1 in R.
    destruct (get_ports _ bs) as [ds|] eqn:G; [|discriminate]. apply get_ports_inv in G. cbn [Model_Ports.fl_i] in G.
    assert (X : exists cs, ds = map Some cs /\ forall d, In d cs -> good sp d).
    { assert (Hb : forall b, In b bs -> exists d, dget (di) b = Some (Some d) /\ good sp d) by (intros; apply Hin; right; auto). clear - G Hb.
      induction G as [|b d bs ds E G IH]; [exists []; split; [reflexivity|intros d []]|]. destruct IH as (cs & -> & Q); [intros; apply Hb; right; auto|].
      destruct (Hb b (or_introl eq_refl)) as (c & C1 & C2). exists (c :: cs). split; [cbn [map]; cbn in E; unfold pdata in *; rewrite C1 in E; injection E as <-; reflexivity|]. intros x [<-|Hx]; auto. }
    destruct X as (cs & -> & Q). cbn [mix_data] in R. rewrite all_dicts_some in R.
    refine (Add (mkCea sp (Some c) (Flows cs) bs) eq_refl _ _ R _); [intros d Ed; injection Ed as <-; exact C2|exact Q|destruct Hp as [<-|[]]; auto].
  - apply (One _ _ R); [left; auto|destruct Hp as [<-|[]]; auto].
  - destruct (Hin "Fl_I1" ltac:(left; auto)) as (c1 & C1 & C2). destruct (Hin "Fl_I2" ltac:(right; left; auto)) as (c2 & D1 & D2).
    cbn [get_ports Model_Ports.fl_i] in R. rewrite C1, D1 in R. cbn [mix_data all_dicts] in R.
    refine (Add (mkCea sp (Some c1) (Flows [c2]) ["mix"]) eq_refl _ _ R _); [intros d Ed; injection Ed as <-; exact C2|intros d [<-|[]]; exact D2|destruct Hp as [<-|[]]; auto].
Qed.
(* and it does not fail *)
Hypothesis Kn : forall n k, In (n, k) els -> match kinds n with KStart _ (Some r) => dget (reactants sp) r <> None | KCombustor f => dget (reactants sp) f <> None | _ => True end.
Lemma copy_ok (e : elem) x y d : dget (Model_Ports.fl_i e) x = Some d -> exists e', copy_flow e (Port x) y = Ok e' /\ Model_Ports.fl_i e' = Model_Ports.fl_i e.
Proof. intros E. unfold copy_flow. rewrite E. eexists. split; reflexivity. Qed.
Lemma copies_ok ys x d (e : elem) : dget (Model_Ports.fl_i e) x = Some d -> exists e', copies e x ys = Ok e'.
Proof. revert e. induction ys as [|y ys IH]; intros e E; [exists e; reflexivity|]. cbn [copies]. destruct (copy_ok e x y d E) as (e' & E1 & E2). rewrite E1. apply IH. rewrite E2. exact E. Qed.
Lemma runs n k (di do_ : dict pdata) : In (n, k) els -> (forall p, In p (e_in k) -> exists d, dget di p = Some (Some d) /\ good sp d) -> exists e', setup_ports M_CEA sp (kinds n) (mkElem di do_) = Ok e'.
Proof.
  intros Hk Hin. pose proof (Cl n k Hk) as Ck. pose proof (Kn n k Hk) as Kk.
  assert (Add : forall r, (exists d, r = Ok d) -> exists e', copy_flow (mkElem di do_) (Adder r) "Fl_O" = Ok e') by (intros r (d & ->); eexists; reflexivity).
  assert (Rx : forall c r, dget (reactants sp) r <> None -> exists d, react_data M_CEA sp c r = Ok d).
  { intros c r Hr. unfold react_data, cea_port_data. cbn [o_mix o_spec o_inflow add_reactants]. destruct (dget (reactants sp) r); [|contradiction Hr; reflexivity]. eexists. reflexivity. }
  assert (At : forall p, In p (e_in k) -> exists c, dget di p = Some (Some c)) by (intros p Hp; destruct (Hin p Hp) as (c & E & _); eauto).
  destruct k as [ad|ad| |st|st wm ex|st|bs st|a st|mp rs bs st|mp a bs st|nt lc|a one]; cbn [starts] in Ck.
  1-3: (destruct Ck as (c & [rr|] & Ek); rewrite Ek in Kk |- *; cbn [setup_ports init_output_flow]; [destruct (Rx c rr Kk) as [d ->]|]; eexists; reflexivity).
  all: rewrite Ck in Kk |- *; cbn [kind_of setup_ports e_in] in *.
  - destruct (At "Fl_I" ltac:(left; auto)) as [c C]. destruct (copy_ok (mkElem di do_) "Fl_I" "Fl_O" (Some c) C) as (e' & E & _). eauto.
  - destruct (At "Fl_I" ltac:(left; auto)) as [c C]. destruct (copy_ok (mkElem di do_) "Fl_I" "Fl_O" (Some c) C) as (e' & E & _). eauto.
  - destruct (At "Fl_I" ltac:(left; auto)) as [c C]. exact (copies_ok _ _ (Some c) (mkElem di do_) C).
  - destruct (At "Fl_I" ltac:(left; auto)) as [c C]. exact (copies_ok _ _ (Some c) (mkElem di do_) C).
  - destruct (At "Fl_I" ltac:(left; auto)) as [c C]. cbn [Model_Ports.fl_i]. rewrite C. apply Add, Rx, Kk.
  - destruct (At "Fl_I" ltac:(left; auto)) as [c C]. exact (copies_ok _ _ (Some c) (mkElem di do_) C).
  - destruct (At "Fl_I" ltac:(left; auto)) as [c C]. cbn [Model_Ports.fl_i]. rewrite C.
    assert (X : exists cs, get_ports (mkElem di do_) bs = Ok (map Some cs)).
    { assert (Hb : forall b, In b bs -> exists c, dget di b = Some (Some c)) by (intros; apply At; right; auto). clear - Hb.
      induction bs as [|b bs IH]; [exists []; reflexivity|]. destruct IH as [cs E]; [intros; apply Hb; right; auto|]. destruct (Hb b (or_introl eq_refl)) as [c C]. exists (c :: cs). cbn [get_ports Model_Ports.fl_i map]. unfold pdata in *. rewrite C, E. reflexivity. }
    destruct X as [cs ->]. apply Add. cbn [mix_data]. rewrite all_dicts_some. unfold cea_port_data. cbn [o_mix o_inflow]. eexists. reflexivity.
  - destruct (At "Fl_I" ltac:(left; auto)) as [c C]. destruct (copy_ok (mkElem di do_) "Fl_I" "Fl_O" (Some c) C) as (e' & E & _). eauto.
  - destruct (At "Fl_I1" ltac:(left; auto)) as [c1 C1]. destruct (At "Fl_I2" ltac:(right; left; auto)) as [c2 C2]. cbn [get_ports Model_Ports.fl_i]. rewrite C1, C2. apply Add. cbn [mix_data all_dicts]. unfold cea_port_data. cbn [o_mix o_inflow]. eexists. reflexivity.
Qed.
(* a total variant of the elements' behaviour: what fails is replaced by air on every connected port *)
Notation beh := (port_behaviour M_CEA sp kinds).
Definition spare : dict pdata := map (fun l => (snd (l_src l), Some CEA_AIR_COMPOSITION)) links.
Definition all_set (n : string) (d : dict pdata) : bool := forallb (fun l => if String.eqb (fst (l_src l)) n then match dget d (snd (l_src l)) with Some _ => true | None => false end else true) links.
Definition tot : @Model_Graph.behaviour pdata := fun n di do_ => match beh n di do_ with Ok d => Ok (if all_set n d then d else spare) | Err _ => Ok spare end.
Lemma spare_has l : In l links -> dget spare (snd (l_src l)) <> None.
Proof.
  intros Hl E. unfold spare in E. assert (X : In (snd (l_src l)) (dkeys (map (fun l => (snd (l_src l), Some CEA_AIR_COMPOSITION)) links))) by (unfold dkeys; rewrite map_map; apply in_map_iff; exists l; auto).
  revert E X. generalize (map (fun l => (snd (l_src l), Some CEA_AIR_COMPOSITION)) links) as d. intros d. induction d as [|[a b] d IH]; intros E X; [destruct X|]. cbn [dget] in E. destruct (String.eqb (snd (l_src l)) a) eqn:Q; [discriminate|]. apply IH; [exact E|]. destruct X as [X|X]; [|exact X]. cbn in X. subst a. rewrite String.eqb_refl in Q. discriminate.
Qed.
Lemma tot_same n k (di do_ : dict pdata) : In (n, k) els -> (forall p, In p (e_in k) -> exists d, dget di p = Some (Some d) /\ good sp d) -> tot n di do_ = beh n di do_.
Proof.
  intros Hk Hin. destruct (runs n k di do_ Hk Hin) as [e' R]. pose proof (outs_good n k di do_ e' Hk Hin R) as O. unfold tot, port_behaviour. rewrite R.
  assert (A : all_set n (Model_Ports.fl_o e') = true); [|rewrite A; reflexivity]. apply forallb_forall. intros l Hl. destruct (String.eqb (fst (l_src l)) n) eqn:E; [|reflexivity]. apply String.eqb_eq in E.
  pose proof N as (N1 & _ & L & _). destruct (L l Hl) as [L1 _]. apply in_ports in L1 as (k' & K' & P'). rewrite E in K'. assert (k' = k) as -> by (exact (same_kind els n k' k N1 K' Hk)). destruct (O _ P') as (d & -> & _). reflexivity.
Qed.
(* Cycle.setup returns *)
Lemma returns : exists s, set_up_as sp kinds els links s.
Proof.
  pose proof N as (N1 & _ & L & _ & Nt).
  destruct (Prop_Graph.C03_no_spurious_error _ ops tot (fun _ => []) (fun _ => []) wf) as (m & s & H).
  - intros a b (p & q & C). destruct (Proofs_GraphApi.connected_nodes ops wf _ _ _ _ C) as (A1 & A2 & A3 & A4). apply conn_iff in C as (l & Hl & E1 & E2); auto. destruct (L l Hl) as [L1 L2]. apply in_ports in L1 as (k1 & K1 & _). apply in_ports in L2 as (k2 & K2 & _).
    rewrite E1 in K1. rewrite E2 in K2. rewrite els_of. split; apply in_map_iff; [exists (a, k1)|exists (b, k2)]; auto.
  - intros n di do_ _. unfold tot. destruct (beh n di do_); eexists; reflexivity.
  - intros a p b q di d C E. destruct (Proofs_GraphApi.connected_nodes ops wf _ _ _ _ C) as (A1 & A2 & A3 & A4). apply conn_iff in C as (l & Hl & E1 & E2); auto. unfold tot in E. pose proof (spare_has l Hl) as Sp. rewrite E1 in Sp. cbn [snd] in Sp.
    destruct (beh a di _) as [d'|]; injection E as <-; [|exact Sp]. destruct (all_set a d') eqn:Q; [|exact Sp]. unfold all_set in Q. rewrite forallb_forall in Q. specialize (Q l Hl). rewrite E1 in Q. cbn [fst snd] in Q. rewrite String.eqb_refl in Q. destruct (dget d' p); congruence.
  - specialize (H m (le_n m)). exists s, m. refine (same_run _ _ _ _ _ _ H _). intros n d do_ Hc.
    destruct (Prop_Graph.C03_acyclic_all_configured _ ops _ _ _ m s wf acyc H) as (Pm & B & Hd & _).
    destruct (Proofs_GraphApi.call_fixed ops tot (fun _ => []) (fun _ => []) wf s n d (proj1 (Proofs_GraphApi.run_reaches ops tot (fun _ => []) (fun _ => []) m s H)) Hc) as [-> _].
    assert (Hn : In n (map fst els)).
    { rewrite <- els_of. apply (Permutation_in n Pm). unfold Proofs_GraphApi.called. apply -> in_rev. apply in_map_iff. exists (n, Model_Graph.fi s n). auto. }
    apply in_map_iff in Hn as ([n' k] & E & Hk). cbn in E. subst n'. apply (tot_same n k _ _ Hk).
    (* every inlet of every element got good data, by induction along the flow *)
    assert (F : forall r n k, rank n = r -> In (n, k) els -> forall p, In p (e_in k) -> exists d, dget (Model_Graph.fi s n) p = Some (Some d) /\ good sp d).
    { clear n do_ Hc k Hk. induction r as [r IH] using (well_founded_induction Wf_nat.lt_wf). intros n k Er Hk p Hp. destruct (used (n, p) (map l_tgt links)) eqn:U.
      - apply used_in in U. apply in_map_iff in U as (l & El & Hl). destruct (L l Hl) as [L1 L2]. apply in_ports in L1 as (k' & K' & P'). apply in_ports in L2 as (k2 & K2 & P2).
        destruct (Nm _ _ K') as (n1 & n2 & _). destruct (Nm _ _ K2) as (m1 & m2 & _).
        destruct (Hd (fst (l_src l)) (snd (l_src l)) (fst (l_tgt l)) (snd (l_tgt l))) as (x & X1 & X2).
        + apply conn_iff; auto. exists l. split; [exact Hl|]. destruct (l_src l), (l_tgt l). auto.
        + rewrite els_of. apply in_map_iff. exists (fst (l_tgt l), k2). auto.
        + intros a p' C. destruct (Proofs_GraphApi.connected_nodes ops wf _ _ _ _ C) as (A1 & A2 & A3 & A4). apply conn_iff in C as (l' & Hl' & E1 & E2); auto.
          assert (l' = l) as ->; [|rewrite E1; auto]. assert (E : l_tgt l' = l_tgt l) by (rewrite E2; destruct (l_tgt l); reflexivity). clear - Nt Hl Hl' E. induction links as [|x0 r0 IH0]; [destruct Hl|].
          cbn in Nt. inversion Nt as [|? ? X Y]; subst. destruct Hl as [->|Hl], Hl' as [->|Hl']; auto; exfalso; apply X; [rewrite <- E|rewrite E]; apply in_map; auto.
        + assert (Lt := Dn l Hl). rewrite El in Lt. cbn [fst] in Lt. rewrite Er in Lt. pose proof (IH _ Lt _ k' eq_refl K') as G.
          specialize (B (fst (l_src l)) ltac:(rewrite els_of; apply in_map_iff; exists (fst (l_src l), k'); auto)). rewrite (tot_same _ k' _ _ K' G) in B. unfold port_behaviour in B.
          destruct (runs _ k' (Model_Graph.fi s (fst (l_src l))) [] K' G) as [e' R]. rewrite R in B. injection B as B. destruct (outs_good _ k' _ _ e' K' G R _ P') as (d & D1 & D2). rewrite B in D1. rewrite El in X2. cbn [fst snd] in X2. exists d. split; [congruence|exact D2].
      - exfalso. assert (X : In (n, p) (open_in els links)) by (apply filter_In; split; [apply in_ports; exists k; auto|rewrite U; reflexivity]). rewrite Op in X. destruct X. }
    exact (F _ n k eq_refl Hk).
Qed.
Variable s : Model_Graph.state pdata.
Hypothesis (Su : set_up_as sp kinds els links s).
Lemma ran n k : In (n, k) els -> exists e', setup_ports M_CEA sp (kinds n) (mkElem (Model_Graph.fi s n) []) = Ok e' /\ Model_Ports.fl_o e' = Model_Graph.fo s n.
Proof.
  destruct Su as (m & H). destruct (Prop_Graph.C03_acyclic_all_configured _ ops _ _ _ m s wf acyc H) as (_ & B & _ & _). intros Hk.
  specialize (B n ltac:(rewrite els_of; apply in_map_iff; exists (n, k); auto)). unfold port_behaviour in B. destruct (setup_ports _ _ _ _) as [e'|]; [|discriminate]. injection B as B. eauto.
Qed.
Lemma handed l : In l links -> exists x, dget (Model_Graph.fo s (fst (l_src l))) (snd (l_src l)) = Some x /\ dget (Model_Graph.fi s (fst (l_tgt l))) (snd (l_tgt l)) = Some x.
Proof.
  destruct Su as (m & H). destruct (Prop_Graph.C03_acyclic_all_configured _ ops _ _ _ m s wf acyc H) as (_ & _ & B & _). intros Hl.
  pose proof N as (_ & _ & L & _ & Nt). destruct (L l Hl) as [L1 L2]. apply in_ports in L1 as (k1 & K1 & P1). apply in_ports in L2 as (k2 & K2 & P2). destruct (Nm _ _ K1) as (n1 & n2 & n3). destruct (Nm _ _ K2) as (m1 & m2 & _).
  apply (B (fst (l_src l)) (snd (l_src l)) (fst (l_tgt l)) (snd (l_tgt l))).
  - apply conn_iff; auto. exists l. split; [exact Hl|]. destruct (l_src l), (l_tgt l). auto.
  - rewrite els_of. apply in_map_iff. exists (fst (l_tgt l), k2). auto.
  - intros a p C. destruct (Proofs_GraphApi.connected_nodes ops wf _ _ _ _ C) as (A1 & A2 & A3 & A4). apply conn_iff in C as (l' & Hl' & E1 & E2); auto.
    assert (l' = l) as ->; [|rewrite E1; auto].
    assert (E : l_tgt l' = l_tgt l) by (rewrite E2; destruct (l_tgt l); reflexivity). clear - Nt Hl Hl' E. induction links as [|x r IH]; [destruct Hl|].
    cbn in Nt. inversion Nt as [|? ? X Y]; subst. destruct Hl as [->|Hl], Hl' as [->|Hl']; auto; exfalso; apply X; [rewrite <- E|rewrite E]; apply in_map; auto.
Qed.
Lemma filled : forall r n k, rank n = r -> In (n, k) els ->
  (forall p, In p (e_in k) -> exists d, dget (Model_Graph.fi s n) p = Some (Some d) /\ good sp d) /\
  (forall p, In p (e_out k) -> exists d, dget (Model_Graph.fo s n) p = Some (Some d) /\ good sp d).
Proof.
  induction r as [r IH] using (well_founded_induction Wf_nat.lt_wf). intros n k Er Hk.
  assert (Hin : forall p, In p (e_in k) -> exists d, dget (Model_Graph.fi s n) p = Some (Some d) /\ good sp d).
  { intros p Hp. destruct (used (n, p) (map l_tgt links)) eqn:U.
    - apply used_in in U. apply in_map_iff in U as (l & El & Hl). pose proof N as (_ & _ & L & _ & _). destruct (L l Hl) as [L1 _]. apply in_ports in L1 as (k' & K' & P').
      assert (Lt := Dn l Hl). rewrite El in Lt. cbn [fst] in Lt. rewrite Er in Lt. destruct (IH _ Lt _ k' eq_refl K') as [_ Q]. destruct (Q _ P') as (d & D1 & D2).
      destruct (handed l Hl) as (x & X1 & X2). rewrite El in X2. cbn [fst snd] in X2. exists d. split; [congruence|exact D2].
    - exfalso. assert (X : In (n, p) (open_in els links)) by (apply filter_In; split; [apply in_ports; exists k; auto|rewrite U; reflexivity]). rewrite Op in X. destruct X. }
  split; [exact Hin|]. destruct (ran n k Hk) as (e' & R & Fo). rewrite <- Fo. exact (outs_good n k _ _ e' Hk Hin R).
Qed.
Lemma lab_out n k p : In (n, k) els -> In p (e_out k) -> dget (Model_Graph.fo s n) p = Some (Some (lab_of els s (n, p))) /\ good sp (lab_of els s (n, p)).
Proof.
  intros Hk Hp. destruct (filled _ n k eq_refl Hk) as [_ F]. destruct (F p Hp) as (d & D1 & D2). unfold lab_of.
  assert (U : used (n, p) (all_ports e_out els) = true) by (apply used_in, in_ports; exists k; auto). rewrite U. unfold stored_at. cbn [fst snd]. rewrite D1. auto.
Qed.
Lemma lab_in n k p : In (n, k) els -> In p (e_in k) -> dget (Model_Graph.fi s n) p = Some (Some (lab_of els s (n, p))) /\ good sp (lab_of els s (n, p)).
Proof.
  intros Hk Hp. destruct (filled _ n k eq_refl Hk) as [F _]. destruct (F p Hp) as (d & D1 & D2). unfold lab_of.
  assert (U : used (n, p) (all_ports e_out els) = false).
  { destruct (used (n, p) (all_ports e_out els)) eqn:U; [|reflexivity]. exfalso. apply used_in, in_ports in U as (k' & K' & P'). cbn [fst snd] in *. destruct N as (N1 & _).
    assert (k' = k) as ->.
    { clear - K' Hk N1. induction els as [|[m x] r IH]; [destruct Hk|]. cbn in N1. inversion N1 as [|? ? X Y]; subst.
      destruct Hk as [A|A], K' as [B|B]; [congruence| | |apply IH; auto]; exfalso; apply X; [injection A as -> _|injection B as -> _]; apply in_map_iff; [exists (n, k')|exists (n, k)]; auto. }
    destruct (Nm n k Hk) as (_ & _ & n3). exact (n3 p Hp P'). }
  assert (U2 : used (n, p) (all_ports e_in els) = true) by (apply used_in, in_ports; exists k; auto). rewrite U, U2. unfold stored_at. cbn [fst snd]. rewrite D1. auto.
Qed.
Lemma lab_good p : good sp (lab_of els s p).
Proof.
  destruct p as [n q]. destruct (used (n, q) (all_ports e_out els)) eqn:U.
  - apply used_in, in_ports in U as (k & K & P). apply (lab_out n k q); auto.
  - destruct (used (n, q) (all_ports e_in els)) eqn:U2.
    + apply used_in, in_ports in U2 as (k & K & P). apply (lab_in n k q); auto.
    + unfold lab_of. rewrite U, U2. split; [constructor|intros x []].
Qed.
Lemma setup_done : adders_built sp fuel (lab_of els s) els -> set_up sp fuel (lab_of els s) els links.
Proof.
  intros Ad. split.
  - intros n k Hk. split; [|intros a o E; exact (Ad n k a o Hk E)]. intros St. destruct (ran n k Hk) as (e' & R & Fo). pose proof (Cl n k Hk) as Ck. rewrite St in Ck. rewrite Ck in R.
    exists (mkElem (Model_Graph.fi s n) []), e'. split; [exact R|]. split; intros p Hp; [apply (lab_in n k p Hk Hp)|rewrite Fo; apply (lab_out n k p Hk Hp)].
  - intros l Hl. pose proof N as (_ & _ & L & _ & _). destruct (L l Hl) as [L1 L2]. apply in_ports in L1 as (k1 & K1 & P1). apply in_ports in L2 as (k2 & K2 & P2).
    destruct (handed l Hl) as (x & X1 & X2). destruct (lab_out _ _ _ K1 P1) as [A _]. destruct (lab_in _ _ _ K2 P2) as [B _].
    destruct (l_src l), (l_tgt l); cbn [fst snd] in *. congruence.
Qed.
End SETUP.

(* ---------- the mixing components can be built ---------- *)
Lemma mk_good sp d : good sp d -> exists p, mk_properties sp (Some d) = Ok p.
Proof.
  intros [_ G]. apply (proj2 (proj2 (proj2 (Prop_Species.C14_rejections sp)))). intros e He. destruct (G e He) as [G1 G2]. split; [exact G2|].
  intros E. apply G1. unfold weight, dgetd. rewrite E. reflexivity.
Qed.
Lemma nodupb_ok l : NoDup l -> Model_ThermoAdd.nodupb l = true.
Proof.
  induction 1 as [|x l H N IH]; [reflexivity|]. cbn. rewrite IH, andb_true_r. apply negb_true_iff. destruct (str_in x l) eqn:E; [|reflexivity]. apply str_in_iff in E. contradiction.
Qed.
Lemma built_react sp d r dr : good sp d -> dget (reactants sp) r = Some dr -> good sp dr -> exists c, cea_setup (mkCea sp (Some d) (Reactants [r]) ["mix"]) = Ok c.
Proof.
  intros G E Gr. unfold cea_setup, cea_port_data. cbn [o_spec o_inflow o_mix o_names add_reactants]. rewrite E.
  destruct (mk_good sp d G) as (p & Ep). rewrite Ep.
  assert (G2 : good sp (dupdate d dr)).
  { destruct G as [A1 A2], Gr as [B1 B2]. split; [apply dwf_dupdate; auto|]. intros x Hx. apply dupdate_keys in Hx as [Hx|Hx]; auto. }
  destruct (mk_good sp _ G2) as (q & Eq). rewrite Eq. cbn [get_all Model_ThermoAdd.nodupb]. rewrite E. eexists. reflexivity.
Qed.
Lemma setup_flows_ok sp l : (forall nd, In nd l -> good sp (snd nd)) -> forall acc, exists fl, setup_flows sp l acc = Ok fl /\
  (forall n, In n (map fst l) \/ dget acc n <> None -> dget fl n <> None).
Proof.
  induction l as [|[n d] r IH]; intros G acc; cbn [setup_flows]; [exists acc; split; [reflexivity|intros n [[]|H]; exact H]|].
  destruct (mk_good sp d (G (n, d) (or_introl eq_refl))) as (p & Ep). rewrite Ep.
  destruct (IH (fun nd H => G nd (or_intror H)) (dset acc n (p_elements p, p_wts p))) as (fl & E & K). exists fl. split; [exact E|].
  intros m H. apply K. destruct (string_dec n m) as [->|Hn]; [right; rewrite dget_dset_same; discriminate|].
  destruct H as [[H|H]|H]; [contradiction|left; exact H|right; rewrite dget_dset_other by auto; exact H].
Qed.
Lemma all_some_ok {A B} (f : A -> option B) l : (forall x, In x l -> f x <> None) -> all_some f l = true.
Proof. induction l as [|a l IH]; cbn; intros H; [reflexivity|]. destruct (f a) eqn:E; [apply IH; auto|]. exfalso. exact (H a (or_introl eq_refl) E). Qed.
Lemma built_flow sp d ds names : good sp d -> (forall x, In x ds -> good sp x) -> NoDup names -> List.length names = List.length ds ->
  exists c, cea_setup (mkCea sp (Some d) (Flows ds) names) = Ok c.
Proof.
  intros G Gs Nd L. unfold cea_setup, cea_port_data. cbn [o_spec o_inflow o_mix o_names]. destruct (mk_good sp d G) as (p & Ep). rewrite Ep.
  assert (G2 : good sp (fold_left dupdate ds d)).
  { clear - G Gs. revert d G. induction ds as [|x r IH]; cbn [fold_left]; intros d G; [exact G|]. apply IH; [intros; apply Gs; right; auto|].
    destruct G as [A1 A2], (Gs x (or_introl eq_refl)) as [B1 B2]. split; [apply dwf_dupdate; auto|]. intros y Hy. apply dupdate_keys in Hy as [Hy|Hy]; auto. }
  destruct (mk_good sp _ G2) as (q & Eq). rewrite Eq. destruct (setup_flows_ok sp (combine names ds)) with (acc := @nil (string * (list string * list R))) as (fl & E & K).
  { intros [n x] H. apply in_combine_r in H. exact (Gs x H). }
  rewrite E, (nodupb_ok names Nd), all_some_ok; [eexists; reflexivity|]. intros x Hx. apply K. left.
  replace (map fst (combine names ds)) with names; [exact Hx|]. clear - L. revert ds L. induction names as [|n r IH]; intros [|d ds] L; try discriminate; [reflexivity|]. cbn. f_equal. apply IH. injection L as L. exact L.
Qed.
