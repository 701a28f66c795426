(* Properties C01-C08: flow graph of a Cycle. *)
From Verif Require Import Lib_Py.
From Verif Require Import Model_Graph Spec_Flow Proofs_GraphApi Proofs_Setup Model_Connect Proofs_Connect.
From Verif Require Proofs_Build.
From Coq Require Import Relations Permutation.
Open Scope list_scope.

(* C01: whatever was added and connected, setup's loop ends (r is either a
   normal end or an exception; None would mean "still running"). *)
Theorem C01_setup_terminates :
  forall (D : Type) (ops : list build_op) (beh : @behaviour D) (fi0 fo0 : @store D),
  exists (r : res (state D)) (n : nat), forall m, n <= m -> setup (build ops) beh m fi0 fo0 = Some r.
Proof. exact (fun D ops beh fi0 fo0 => setup_terminates (build ops) beh fi0 fo0). Qed.
Print Assumptions C01_setup_terminates.

(* C02: in every state the traversal passes through: no element was called
   twice; a called element saw, on each of its connected ports, the data that
   some connected source port holds; feeders were called before. *)
Theorem C02_calls_once_in_flow_order :
  forall (D : Type) ops (beh : @behaviour D) fi0 fo0 s, wf_ops ops ->
  reaches (build ops) beh (init (build ops) fi0 fo0) s ->
  NoDup (called s) /\
  (forall n d a p q, In (n, d) (calls s) -> connected ops a p n q ->
     exists a' p' x, connected ops a' p' n q /\ dget (fo s a') p' = Some x /\ dget d q = Some x) /\
  (forall a n, flows ops a n -> In n (called s) -> In a (elements_of ops) -> before (called s) a n).
Proof.
  exact (fun D ops beh fi0 fo0 s W H =>
    conj (called_nodup ops beh fi0 fo0 W s H)
   (conj (fun n d a p q Hc Hx => call_inputs ops beh fi0 fo0 W s n d a p q H Hc Hx)
         (fun a n Hf Hn Ha => called_order ops beh fi0 fo0 W s a n H Hf Hn Ha))).
Qed.
Print Assumptions C02_calls_once_in_flow_order.

(* C03: acyclic flow graph, setup returned normally: every element called
   exactly once, its output data computed from its final input data, every
   singly connected input port holds the data of its source port, and input
   ports that are not connected keep their previous content. *)
Theorem C03_acyclic_all_configured :
  forall (D : Type) ops (beh : @behaviour D) fi0 fo0 fuel s, wf_ops ops -> acyclic ops ->
  setup (build ops) beh fuel fi0 fo0 = Some (Ok s) ->
  Permutation (called s) (elements_of ops) /\
  (forall n, In n (elements_of ops) -> beh n (fi s n) (fo0 n) = Ok (fo s n)) /\
  (forall a p b q, connected ops a p b q -> In b (elements_of ops) ->
     (forall a' p', connected ops a' p' b q -> a' = a /\ p' = p) ->
     exists x, dget (fo s a) p = Some x /\ dget (fi s b) q = Some x) /\
  (forall b q, (forall a p, ~ connected ops a p b q) -> dget (fi s b) q = dget (fi0 b) q).
Proof.
  exact (fun D ops beh fi0 fo0 fuel s W Ha H =>
    let P := final_perm ops beh fi0 fo0 W fuel s H Ha in
    conj P
   (conj (fun n Hn =>
      match proj1 (in_map_iff fst (calls s) n) (proj2 (in_rev (map fst (calls s)) n) (Permutation_in n (Permutation_sym P) Hn)) with
      | ex_intro _ (n', d) (conj E Hin) =>
          match E in (_ = y) return beh y (fi s y) (fo0 y) = Ok (fo s y) with
          | eq_refl =>
             match call_fixed ops beh fi0 fo0 W s n' d (proj1 (run_reaches ops beh fi0 fo0 fuel s H)) Hin with
             | conj Ed Hb => eq_ind d (fun z => beh n' z (fo0 n') = Ok (fo s n')) Hb (fi s n') Ed
             end
          end
      end)
   (conj (fun a p b q Hc Hb Hs => final_data ops beh fi0 fo0 W fuel s H a p b q Hc
            (Permutation_in b (Permutation_sym P) Hb) Hs)
         (fun b q Hn => final_keep ops beh fi0 fo0 W fuel s H b q Hn)))).
Qed.
Print Assumptions C03_acyclic_all_configured.

(* C03, no spurious error: if every connected name is an added element and the
   elements' own callbacks succeed and fill their connected ports, then setup
   returns normally (for any topology). *)
Theorem C03_no_spurious_error :
  forall (D : Type) ops (beh : @behaviour D) fi0 fo0, wf_ops ops ->
  (forall a b, flows ops a b -> In a (elements_of ops) /\ In b (elements_of ops)) ->
  (forall n di do_, In n (elements_of ops) -> exists d, beh n di do_ = Ok d) ->
  (forall a p b q di d, connected ops a p b q -> beh a di (fo0 a) = Ok d -> dget d p <> None) ->
  exists n s, forall m, n <= m -> setup (build ops) beh m fi0 fo0 = Some (Ok s).
Proof. exact (fun D ops beh fi0 fo0 W Hall Hbeh Hp => setup_ok_when_ports_defined ops beh fi0 fo0 W Hall Hbeh Hp). Qed.
Print Assumptions C03_no_spurious_error.

(* C04, exact characterisation of what a normal return configured: precisely
   the elements that have no loop at or upstream of them. *)
Theorem C04_configured_iff_upstream_acyclic :
  forall (D : Type) ops (beh : @behaviour D) fi0 fo0 fuel s, wf_ops ops ->
  setup (build ops) beh fuel fi0 fo0 = Some (Ok s) ->
  forall n, In n (called s) <-> In n (elements_of ops) /\ upstream_acyclic ops n.
Proof. exact (fun D ops beh fi0 fo0 fuel s W H n => final_called ops beh fi0 fo0 W fuel s H n). Qed.
Print Assumptions C04_configured_iff_upstream_acyclic.

(* a turbojet-like chain start -> comp -> nozz, and the same with a recirculating
   bleed from comp back to itself through a mixer *)
Definition chain_ops : list build_op :=
  [ AddSubsystem "start" true; AddSubsystem "comp" true; AddSubsystem "nozz" true; AddSubsystem "bal" false;
    ConnectFlow "start.Fl_O" "comp.Fl_I"; ConnectFlow "comp.Fl_O" "nozz.Fl_I" ].
Definition loop_ops : list build_op :=
  [ AddSubsystem "start" true; AddSubsystem "mix" true; AddSubsystem "comp" true; AddSubsystem "nozz" true;
    ConnectFlow "start.Fl_O" "mix.Fl_I1"; ConnectFlow "comp.bld" "mix.Fl_I2";
    ConnectFlow "mix.Fl_O" "comp.Fl_I"; ConnectFlow "comp.Fl_O" "nozz.Fl_I" ].
(* an element that answers on every port name used above *)
Definition demo_beh : @behaviour nat := fun n di _ =>
  Ok [("Fl_O", S (List.length di)); ("bld", 7)].

(* C04 as stated (a loop is reported) is false: setup returns normally and
   mix, comp and nozz were never configured. *)
Theorem C04_loop_reported_refuted :
  exists ops (s : state nat),
    wf_ops ops /\ ~ acyclic ops /\
    setup (build ops) demo_beh 40 (fun _ => []) (fun _ => []) = Some (Ok s) /\
    elements_of ops = ["start"; "mix"; "comp"; "nozz"] /\ called s = ["start"].
Proof.
  exists loop_ops. eexists. split; [|split; [|split; [|split]]].
  - split.
    + intros n b H. cbn in H. intuition; match goal with H : _ = _ |- _ => inversion H; reflexivity end.
    + apply nodupb_NoDup. reflexivity.
    + intros s t H. cbn in H.
      repeat (destruct H as [H|H]; [try discriminate H; inversion H; subst|]); try destruct H.
      * exists "start", "Fl_O", "mix", "Fl_I1". repeat split; reflexivity.
      * exists "comp", "bld", "mix", "Fl_I2". repeat split; reflexivity.
      * exists "mix", "Fl_O", "comp", "Fl_I". repeat split; reflexivity.
      * exists "comp", "Fl_O", "nozz", "Fl_I". repeat split; reflexivity.
    + intros s t s' t' H H'. cbn in H, H'.
      repeat (destruct H as [H|H]; [try discriminate H; inversion H; subst|]); try destruct H;
      repeat (destruct H' as [H'|H']; [try discriminate H'; inversion H'; subst; discriminate|]); destruct H'.
  - intros Ha. apply (Ha "mix"). apply (t_trans _ _ _ "comp"); apply t_step.
    + exists "Fl_O", "Fl_I". right; right; right; right; right; right; left. reflexivity.
    + exists "bld", "Fl_I2". do 5 right; left. reflexivity.
  - vm_compute. reflexivity.
  - reflexivity.
  - vm_compute. reflexivity.
Qed.
Print Assumptions C04_loop_reported_refuted.

(* C05: a connected output port whose data is never defined makes setup raise;
   and when names are right and callbacks succeed, the only exception setup can
   raise is that RuntimeError, caused by such a port. *)
Theorem C05_missing_port_raises :
  forall (D : Type) ops (beh : @behaviour D) fi0 fo0, wf_ops ops ->
  forall a p b q, connected ops a p b q -> In a (elements_of ops) -> upstream_acyclic ops a ->
  (forall di d, beh a di (fo0 a) = Ok d -> dget d p = None) ->
  exists e n, forall m, n <= m -> setup (build ops) beh m fi0 fo0 = Some (Err e).
Proof. exact (@setup_missing_port). Qed.
Print Assumptions C05_missing_port_raises.

Theorem C05_only_runtime_error :
  forall (D : Type) ops (beh : @behaviour D) fi0 fo0, wf_ops ops ->
  (forall a b, flows ops a b -> In a (elements_of ops) /\ In b (elements_of ops)) ->
  (forall n di do_, In n (elements_of ops) -> exists d, beh n di do_ = Ok d) ->
  forall fuel e, setup (build ops) beh fuel fi0 fo0 = Some (Err e) ->
  e = RuntimeError /\
  exists a p b q di d, connected ops a p b q /\ beh a di (fo0 a) = Ok d /\ dget d p = None.
Proof. exact (fun D ops beh fi0 fo0 W Hall Hbeh fuel e => setup_err ops beh fi0 fo0 W Hall Hbeh fuel e). Qed.
Print Assumptions C05_only_runtime_error.

(* non-vacuity: the chain meets the hypotheses, setup configures it in order
   and the data travels down the chain *)
Example chain_wf : wf_ops chain_ops.
Proof.
  split.
  - intros n b H. cbn in H. intuition; match goal with H : _ = _ |- _ => inversion H; reflexivity end.
  - apply nodupb_NoDup. reflexivity.
  - intros s t H. cbn in H.
    repeat (destruct H as [H|H]; [try discriminate H; inversion H; subst|]); try destruct H.
    + exists "start", "Fl_O", "comp", "Fl_I". repeat split; reflexivity.
    + exists "comp", "Fl_O", "nozz", "Fl_I". repeat split; reflexivity.
  - intros s t s' t' H H'. cbn in H, H'.
    repeat (destruct H as [H|H]; [try discriminate H; inversion H; subst|]); try destruct H;
    repeat (destruct H' as [H'|H']; [try discriminate H'; inversion H'; subst; discriminate|]); destruct H'.
Qed.
Example chain_acyclic : acyclic chain_ops.
Proof.
  assert (H : forall a b, flows chain_ops a b -> (a = "start" /\ b = "comp") \/ (a = "comp" /\ b = "nozz")).
  { intros a b [p [q H]].
    destruct (connected_nodes chain_ops chain_wf a p b q H) as [H1 [H2 [H3 H4]]].
    pose proof (Proofs_Build.port_parent_path a p H1 H2) as P1.
    pose proof (Proofs_Build.port_parent_path b q H3 H4) as P2.
    unfold connected, chain_ops in H.
    set (x := path a p) in *. set (y := path b q) in *. clearbody x y. cbn [In] in H.
    destruct H as [H|[H|[H|[H|[H|[H|[]]]]]]]; inversion H; subst x y;
    vm_compute in P1; vm_compute in P2; auto. }
  intros a Ha.
  assert (K : forall a b, clos_trans _ (flows chain_ops) a b ->
      (a = "start" /\ (b = "comp" \/ b = "nozz")) \/ (a = "comp" /\ b = "nozz")).
  { intros x y T. induction T as [x y T|x y z _ IH1 _ IH2].
    - destruct (H x y T) as [[-> ->]|[-> ->]]; auto.
    - destruct IH1 as [[-> [->| ->]]|[-> ->]]; destruct IH2 as [[E [->| ->]]|[E ->]]; try discriminate E; auto. }
  destruct (K a a Ha) as [[-> [E|E]]|[-> E]]; discriminate E.
Qed.
Example chain_runs : exists s : state nat,
  setup (build chain_ops) demo_beh 20 (fun _ => []) (fun _ => []) = Some (Ok s) /\
  called s = ["start"; "comp"; "nozz"] /\ fi s "nozz" = [("Fl_I", 2)] /\ fi s "comp" = [("Fl_I", 1)].
Proof. eexists. vm_compute. repeat split; reflexivity. Qed.

(* C06: the FlowIn variables that are connected, for every port pair and flag *)
Theorem C06_flags_select_groups :
  forall src tgt connect_stat connect_tot connect_w v,
  In v suffixes -> ~ In v unsupported ->
  (In (cat tgt v) (map snd (flow_connections src tgt connect_stat connect_tot connect_w))
   <-> expected connect_stat connect_tot connect_w v = true).
Proof. exact conns_target. Qed.
Print Assumptions C06_flags_select_groups.

Theorem C06_connected_once_and_same_name :
  forall src tgt cs ct cw,
  NoDup (map snd (flow_connections src tgt cs ct cw)) /\
  (forall s t, In (s, t) (flow_connections src tgt cs ct cw) ->
     exists v, t = cat tgt v /\ In (cat tgt v) (flow_in_inputs tgt) /\
       (s = cat src v \/ v = ":stat:composition" /\ s = cat src ":tot:composition")).
Proof.
  exact (fun src tgt cs ct cw => conj (conns_once src tgt cs ct cw)
    (fun s t H => match conns_same_name src tgt cs ct cw s t H with
       ex_intro _ v (conj A (conj B C)) => ex_intro _ v (conj A (conj (in_map (cat tgt) suffixes v B) C)) end)).
Qed.
Print Assumptions C06_connected_once_and_same_name.

(* the full claim "every FlowIn input is connected" fails for three inputs *)
Theorem C06_all_inputs_connected_refuted :
  forall src tgt, exists v, In v (flow_in_inputs tgt) /\
    ~ In v (map snd (flow_connections src tgt true true true)).
Proof.
  exact (fun src tgt => ex_intro _ (cat tgt ":stat:R")
   (conj (in_map (cat tgt) suffixes ":stat:R" (proj1 (str_in_iff ":stat:R" suffixes) eq_refl))
         (conns_unsupported src tgt true true true ":stat:R" (or_introl eq_refl)))).
Qed.
Print Assumptions C06_all_inputs_connected_refuted.

Theorem C06_default_connects_partial :   (* missing: stat:R, stat:Wc, FAR *)
  forall src tgt v, In v suffixes -> ~ In v [":stat:R"; ":stat:Wc"; ":FAR"] ->
  In (cat tgt v) (map snd (flow_connections src tgt true true true)).
Proof.
  intros src tgt v Hv Hu. apply conns_target; auto.
  assert (H : forallb (fun v => str_in v unsupported || expected true true true v) suffixes = true) by reflexivity.
  rewrite forallb_forall in H. specialize (H v Hv). apply orb_true_iff in H as [H|H]; auto.
  apply str_in_iff in H. contradiction.
Qed.
Print Assumptions C06_default_connects_partial.

(* C07 *)
Theorem C07_port_of_element :
  forall a p, no_char "." a = true -> no_char "." p = true ->
  port_parent (path a p) = a /\ port_name (path a p) = p.
Proof. exact (fun a p Ha Hp => conj (Proofs_Build.port_parent_path a p Ha Hp) (Proofs_Build.port_name_path a p Ha Hp)). Qed.
Print Assumptions C07_port_of_element.
Theorem C07_nested_port_refuted :
  port_parent (path "grp" (path "elem" "Fl_O")) <> path "grp" "elem" /\
  forall a b p, no_char "." a = true -> no_char "." b = true -> no_char "." p = true ->
  port_parent (path a (path b p)) = (a ++ b)%string.
Proof. split; [discriminate|exact port_parent_nested]. Qed.
Print Assumptions C07_nested_port_refuted.

(* C08 *)
Theorem C08_options_pushed :
  forall (V : Type) (cyc : dict V) (children : dict (dict V)),
  (forall o, In o ["thermo_method"; "thermo_data"; "design"] -> In o (dkeys cyc)) ->
  exists children', push_options cyc children = Ok children' /\
    Forall2 (fun c c' => fst c' = fst c /\ dkeys (snd c') = dkeys (snd c) /\
       (forall o, In o ["thermo_method"; "thermo_data"; "design"] -> In o (dkeys (snd c)) ->
                  dget (snd c') o = dget cyc o) /\
       (forall o, ~ In o ["thermo_method"; "thermo_data"; "design"] -> dget (snd c') o = dget (snd c) o))
      children children'.
Proof. exact (fun V cyc children H => push_options_spec cyc children H). Qed.
Print Assumptions C08_options_pushed.
Example C08_example :
  push_options [("design", 1); ("thermo_method", 2); ("thermo_data", 3)]
    [("comp", [("design", 9); ("map", 8); ("thermo_method", 7)]); ("bal", [("x", 0)])]
  = Ok [("comp", [("design", 1); ("map", 8); ("thermo_method", 2)]); ("bal", [("x", 0)])].
Proof. reflexivity. Qed.
