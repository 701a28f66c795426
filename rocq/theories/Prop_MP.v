(* Claims C09-C12: MPCycle API histories and the connections issued by configure. *)
From Verif Require Import Lib_Py.
From Verif Require Import Model_MP Spec_MP Proofs_MP.
Open Scope list_scope.

Section P.
Context {V : Type}.

Lemma run_app ops1 ops2 (m : mp V) : mp_run m (ops1 ++ ops2) =
  (let '(m1, h1) := mp_run m ops1 in let '(m2, h2) := mp_run m1 ops2 in (m2, h1 ++ h2)).
Proof.
  revert m. induction ops1 as [|o r IH]; intros m; cbn [mp_run app].
  - destruct (mp_run m ops2); auto.
  - destruct (mp_step m o) as [m' e]. rewrite IH. destruct (mp_run m' r) as [m1 h1].
    destruct (mp_run m1 ops2); auto.
Qed.

Lemma run_length ops : forall (m m' : mp V) h, mp_run m ops = (m', h) -> map fst h = ops.
Proof. intros. apply (run_fields _ _ _ _ H). Qed.

(* Which calls raise, read off the history before the call. *)
Definition expected_outcome (before : history V) (o : mp_op V) : option exn :=
  match o with
  | AddParam n _ => if str_in n (map fst (params before)) then Some ValueError else None
  | ConnectDesOd _ _ | UseDefault _ =>
      match design_points before, od_points before with
      | [], _ => Some ValueError | _, [] => Some ValueError | _, _ => None end
  | AddPnt _ p => match p_design p with
                  | PyTrue => match design_points before with [] => None | _ => Some ValueError end
                  | _ => None end
  end.

Lemma step_expected m (before : history V) ops o m' e :
  mp_run mp_init ops = (m, before) -> mp_step m o = (m', e) -> e = expected_outcome before o.
Proof.
  intros Hr Hs. destruct (hist_fields _ _ _ Hr) as [F1 [F2 [F3 [F4 _]]]].
  unfold mp_step in Hs. unfold expected_outcome. rewrite <- F1, <- F2, <- F4. unfold des_list.
  destruct o as [n v|s t|sk|n p].
  - assert (E : str_in n (map fst (m_params m)) = dmem (m_params m) n).
    { clear. unfold dmem, str_in. induction (m_params m) as [|[k v] r IH]; simpl; auto.
      destruct (String.eqb n k); simpl; auto. }
    rewrite E. destruct (dmem (m_params m) n); inversion Hs; auto.
  - destruct (m_des m); [destruct (m_od m)|]; inversion Hs; auto.
  - destruct (m_des m); [destruct (m_od m)|]; inversion Hs; auto.
  - destruct (p_design p); [destruct (m_des m)| |]; inversion Hs; auto.
Qed.

Lemma hist_split ops m (h1 h2 : history V) oe :
  mp_run mp_init ops = (m, h1 ++ oe :: h2) ->
  exists m1 m2, mp_run mp_init (map fst h1) = (m1, h1) /\ mp_step m1 (fst oe) = (m2, snd oe)
     /\ mp_run m2 (map fst h2) = (m, h2).
Proof.
  intros H. assert (Ho := run_length _ _ _ _ H). rewrite map_app in Ho. subst ops.
  rewrite run_app in H. destruct (mp_run mp_init (map fst h1)) as [m1 h1'] eqn:E1.
  assert (L1 := run_length _ _ _ _ E1). cbn [map] in H. cbn [mp_run] in H.
  destruct (mp_step m1 (fst oe)) as [m2 e] eqn:Es.
  destruct (mp_run m2 (map fst h2)) as [m3 h2'] eqn:E2. inversion H; subst m3.
  assert (Hl : List.length h1' = List.length h1).
  { rewrite <- (map_length fst h1'), L1. apply map_length. }
  assert (h1' = h1 /\ (fst oe, e) :: h2' = oe :: h2) as [-> Hr].
  { clear -Hl H2. revert h1 Hl H2. induction h1'; intros [|b h1] Hl Hq; simpl in *; try discriminate; auto.
    inversion Hq; subst. destruct (IHh1' h1) as [-> ?]; auto. }
  inversion Hr; subst. exists m1, m2. destruct oe; simpl in *. inversion H1; subst. auto.
Qed.

(* C09: whatever sequence of calls is made, (a) at most one call added a design point;
   (b) the retained points are exactly those of the calls that did not raise, in order;
   (c) every call raises exactly when the calls before it say so, always ValueError;
   (d) a raising call leaves the object unchanged. *)
Theorem C09_one_design_point (ops : list (mp_op V)) (m : mp V) (h : history V) :
  mp_run mp_init ops = (m, h) ->
  map fst h = ops /\
  List.length (design_points h) <= 1 /\
  m_des m = match design_points h with [] => None | x :: _ => Some x end /\
  m_od m = od_points h /\
  (forall h1 o e h2, h = h1 ++ (o, e) :: h2 -> e = expected_outcome h1 o).
Proof.
  intros Hr. destruct (hist_fields _ _ _ Hr) as [F1 [F2 [F3 [F4 [F5 F6]]]]].
  repeat split; auto.
  - exact (one_design _ _ _ Hr).
  - rewrite <- F2. unfold des_list. destruct (m_des m); auto.
  - intros h1 o e h2 ->. destruct (hist_split _ _ _ _ _ Hr) as [m1 [m2 [R1 [R2 _]]]].
    exact (step_expected _ _ _ _ _ _ R1 R2).
Qed.

Theorem C09_failed_call_changes_nothing (m m' : mp V) (o : mp_op V) e :
  mp_step m o = (m', Some e) -> m' = m /\ e = ValueError.
Proof. apply step_error. Qed.

(* Not true as claimed ("all points added are kept"): a point whose 'design' option is
   truthy but not the object True is accepted without error and forgotten. *)
Theorem C09_points_kept_refuted (m : mp V) n p :
  p_design p = PyOther -> mp_step m (AddPnt n p) = (m, None).
Proof. intros H. unfold mp_step. now rewrite H. Qed.

(* C10: the explicit connections come first among configure's connections, in call order,
   one per (pyc_connect_des_od call, off-design point) -- also for points added later. *)
Theorem C10_connections_reach_every_point (ops : list (mp_op V)) m h dn dp elems :
  mp_run mp_init ops = (m, h) -> design_points h = [(dn, dp)] ->
  exists acts rest, configure m elems = Ok acts /\
    connections acts =
      flat_map (fun st => map (fun od => (dot dn (fst st), dot (fst od) (snd st))) (od_points h)) (des_od_conns h) ++ rest
    /\ (last_skip h = None -> rest = []).
Proof.
  intros Hr Hd. destruct (hist_configure _ _ _ Hr _ _ elems Hd) as [acts [H1 [H2 _]]].
  eexists acts, _. split; [auto|]. split; [exact H2|]. intros ->. reflexivity.
Qed.

Theorem C10_each_pair_connected (ops : list (mp_op V)) m h dn dp elems acts s t od :
  mp_run mp_init ops = (m, h) -> In (dn, dp) (design_points h) -> configure m elems = Ok acts ->
  In (ConnectDesOd s t, None) h -> In od (od_points h) ->
  In (dot dn s, dot (fst od) t) (connections acts).
Proof.
  intros Hr Hd Hc Hi Ho.
  assert (Hone := one_design _ _ _ Hr).
  destruct (design_points h) as [|x [|? ?]] eqn:E; simpl in *; try lia; try tauto.
  destruct Hd as [->|[]].
  destruct (hist_configure _ _ _ Hr _ _ elems E) as [acts' [H1 [H2 _]]].
  assert (acts' = acts) by congruence. subst. rewrite H2. apply in_or_app. left.
  apply in_flat_map. exists (s, t). split.
  - unfold des_od_conns, succeeded. apply in_flat_map. exists (ConnectDesOd s t). split; [|simpl; auto].
    apply in_flat_map. exists (ConnectDesOd s t, None). split; auto. simpl; auto.
  - apply in_map_iff. exists od. auto.
Qed.

(* C11 *)
Theorem C11_params_promoted_everywhere (ops : list (mp_op V)) m h dn dp elems :
  mp_run mp_init ops = (m, h) -> design_points h = [(dn, dp)] ->
  NoDup (map fst (params h)) /\
  exists acts, configure m elems = Ok acts /\
    defaults acts = params h /\
    promotions acts = flat_map (fun pv => (dn, fst pv) :: map (fun od => (fst od, fst pv)) (od_points h)) (params h).
Proof.
  intros Hr Hd. split; [exact (params_nodup _ _ _ Hr)|].
  destruct (hist_configure _ _ _ Hr _ _ elems Hd) as [acts [H1 [_ [H3 H4]]]]. eauto.
Qed.

(* the first value given to a parameter is the one kept, for every later history *)
Theorem C11_first_value_kept (ops1 ops2 : list (mp_op V)) m1 h1 m2 h2 n v :
  mp_run mp_init ops1 = (m1, h1) -> mp_run mp_init (ops1 ++ ops2) = (m2, h2) ->
  In (n, v) (params h1) -> forall v', In (n, v') (params h2) <-> v' = v.
Proof.
  intros H1 H2 Hi v'. assert (Hn := params_nodup _ _ _ H2).
  assert (Hin : In (n, v) (params h2)).
  { rewrite run_app, H1 in H2. destruct (mp_run m1 ops2) as [m3 h3]. inversion H2; subst.
    unfold params. rewrite succeeded_app, flat_map_app. apply in_or_app. left. exact Hi. }
  split; [|intros ->; auto]. intros Hv.
  clear -Hn Hin Hv. induction (params h2) as [|[a b] r IH]; simpl in *; [tauto|].
  inversion Hn; subst. destruct Hin as [E1|E1], Hv as [E2|E2].
  - congruence.
  - inversion E1; subst. exfalso. apply H1. apply in_map_iff. exists (n, v'). auto.
  - inversion E2; subst. exfalso. apply H1. apply in_map_iff. exists (n, v). auto.
  - auto.
Qed.

(* without a design point, a cycle parameter makes configure fail with AttributeError *)
Theorem C11_no_design_point (ops : list (mp_op V)) m h elems :
  mp_run mp_init ops = (m, h) -> design_points h = [] ->
  configure m elems = match params h with [] => Ok [] | _ => Err AttributeError end.
Proof. intros Hr. exact (hist_no_design _ _ _ Hr elems). Qed.

(* C12: skip given as a collection of names (or omitted) *)
Theorem C12_default_connections (ops : list (mp_op V)) m h dn dp elems names :
  mp_run mp_init ops = (m, h) -> design_points h = [(dn, dp)] ->
  last_skip h = Some (SkipNames names) ->
  exists acts, configure m elems = Ok acts /\
    connections acts =
      flat_map (fun st => map (fun od => (dot dn (fst st), dot (fst od) (snd st))) (od_points h)) (des_od_conns h)
      ++ flat_map (fun el => match snd el with
            | None => []
            | Some cs => flat_map (fun st => map (fun od =>
                  (dot dn (dot (fst el) (fst st)), dot (fst od) (dot (fst el) (snd st)))) (od_points h)) cs end)
          (filter (fun el => negb (str_in (fst el) names)) elems).
Proof.
  intros Hr Hd Hs. destruct (hist_configure _ _ _ Hr _ _ elems Hd) as [acts [H1 [H2 _]]].
  exists acts. split; auto. rewrite H2, Hs. f_equal. clear.
  induction elems as [|el r IH]; simpl; auto. unfold skipped in *.
  destruct (str_in (fst el) names); simpl; rewrite IH; auto.
Qed.

Theorem C12_no_skip (ops : list (mp_op V)) m h dn dp elems :
  mp_run mp_init ops = (m, h) -> design_points h = [(dn, dp)] ->
  last_skip h = Some SkipNone ->
  exists acts, configure m elems = Ok acts /\
    forall el cs s t od, In el elems -> snd el = Some cs -> In (s, t) cs -> In od (od_points h) ->
      In (dot dn (dot (fst el) s), dot (fst od) (dot (fst el) t)) (connections acts).
Proof.
  intros Hr Hd Hs. destruct (hist_configure _ _ _ Hr _ _ elems Hd) as [acts [H1 [H2 _]]].
  exists acts. split; auto. intros el cs s t od He Hc Hst Ho. rewrite H2, Hs. apply in_or_app. right.
  apply in_flat_map. exists el. split; auto. cbn [skipped]. rewrite Hc.
  apply in_flat_map. exists (s, t). split; auto. apply in_map_iff. exists od; auto.
Qed.

(* Not true when skip is a plain string: an element not named there can lose its
   connections because `in` is then the substring test. *)
Theorem C12_skip_string_refuted (val : V) :
  exists ops (m : mp V) h elems, mp_run mp_init ops = (m, h) /\
    last_skip h = Some (SkipStr "hpc") /\
    In ("hp"%string, Some [("s"%string, "t"%string)]) elems /\ od_points h <> [] /\
    exists acts, configure m elems = Ok acts /\ connections acts = [].
Proof.
  exists [AddPnt "DESIGN" (mkPoint PyTrue []); AddPnt "OD" (mkPoint PyFalse []); UseDefault (SkipStr "hpc")].
  eexists _, _, [("hp"%string, Some [("s"%string, "t"%string)])].
  split; [reflexivity|]. split; [reflexivity|]. split; [simpl; auto|]. split; [discriminate|].
  eexists. split; reflexivity.
Qed.
End P.

(* witnesses: a history with late points, a rejected second design point and a duplicate parameter *)
Definition ex_ops : list (mp_op nat) :=
  [AddParam "p" 1; AddPnt "DESIGN" (mkPoint PyTrue []); ConnectDesOd "early" "x";
   AddPnt "OD0" (mkPoint PyFalse []); ConnectDesOd "a" "b"; AddParam "p" 2;
   AddPnt "D2" (mkPoint PyTrue []); AddPnt "OD1" (mkPoint PyFalse []); UseDefault (SkipNames ["hpc"%string])].

Example ex_outcomes : map snd (snd (mp_run mp_init ex_ops)) =
  [None; None; Some ValueError; None; None; Some ValueError; Some ValueError; None; None].
Proof. reflexivity. Qed.

Example ex_configure :
  match configure (fst (mp_run mp_init ex_ops)) [("hpc", Some [("s_PR", "s_PR")]); ("fan", Some [("A", "A")]); ("duct", None)]%string with
  | Ok acts => connections acts = [("DESIGN.a", "OD0.b"); ("DESIGN.a", "OD1.b"); ("DESIGN.fan.A", "OD0.fan.A"); ("DESIGN.fan.A", "OD1.fan.A")]%string
       /\ promotions acts = [("DESIGN", "p"); ("OD0", "p"); ("OD1", "p")]%string /\ defaults acts = [("p"%string, 1)]
  | Err _ => False end.
Proof. repeat split; reflexivity. Qed.
