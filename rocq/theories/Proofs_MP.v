From Verif Require Import Lib_Py.
From Verif Require Import Model_MP Spec_MP.
Open Scope list_scope.

Section M.
Context {V : Type}.
Implicit Types m : mp V.

Definition opt_last (a : option skip_arg) (l : list (mp_op V)) : option skip_arg :=
  fold_left (fun acc o => match o with UseDefault s => Some s | _ => acc end) l a.

Lemma dset_new {A} (d : dict A) k v : dmem d k = false -> dset d k v = d ++ [(k, v)].
Proof.
  unfold dmem. induction d as [|[k0 v0] r IH]; simpl; auto.
  destruct (String.eqb k k0); [discriminate|]. intros H. now rewrite IH.
Qed.

Definition des_list m : list (string * point) := match m_des m with Some x => [x] | None => [] end.
Definition skip_opt m : option skip_arg := if m_default m then Some (m_skip m) else None.

Lemma step_fields m o m' e : mp_step m o = (m', e) ->
  m_od m' = m_od m ++ od_points [(o, e)] /\
  des_list m' = des_list m ++ design_points [(o, e)] /\
  m_conns m' = m_conns m ++ des_od_conns [(o, e)] /\
  m_params m' = m_params m ++ params [(o, e)] /\
  skip_opt m' = opt_last (skip_opt m) (succeeded [(o, e)]) /\
  m_subsystems m' = m_subsystems m ++ flat_map (fun o => match o with AddPnt n p => match p_design p with PyOther => [] | _ => [n] end | _ => [] end) (succeeded [(o, e)]).
Proof.
  unfold mp_step, des_list, skip_opt, opt_last, od_points, design_points, des_od_conns, params, succeeded.
  destruct o as [n v|s t|sk|n p].
  - destruct (dmem (m_params m) n) eqn:E; intros H; inversion H; subst; cbn; rewrite ?app_nil_r, ?dset_new; auto; repeat split; auto.
  - destruct (m_des m) as [d|] eqn:Ed; [destruct (m_od m) as [|x l] eqn:Eo|]; intros H; inversion H; subst; cbn; rewrite ?Ed, ?Eo, ?app_nil_r; repeat split; auto.
  - destruct (m_des m) as [d|] eqn:Ed; [destruct (m_od m) as [|x l] eqn:Eo|]; intros H; inversion H; subst; cbn; rewrite ?Ed, ?Eo, ?app_nil_r; repeat split; auto.
  - destruct (p_design p) eqn:Ep.
    + destruct (m_des m) as [d|] eqn:Ed; intros H; inversion H; subst; cbn; rewrite ?Ed, ?Ep, ?app_nil_r; repeat split; auto.
    + intros H; inversion H; subst; cbn; rewrite ?Ep, ?app_nil_r; cbn; rewrite ?app_nil_r; repeat split; auto.
    + intros H; inversion H; subst; cbn; rewrite ?Ep, ?app_nil_r; cbn; rewrite ?app_nil_r; repeat split; auto.
Qed.

Lemma step_error m o m' e : mp_step m o = (m', Some e) -> m' = m /\ e = ValueError.
Proof.
  unfold mp_step. destruct o as [n v|s t|sk|n p].
  - destruct (dmem (m_params m) n); intros H; inversion H; auto.
  - destruct (m_des m); [destruct (m_od m)|]; intros H; inversion H; auto.
  - destruct (m_des m); [destruct (m_od m)|]; intros H; inversion H; auto.
  - destruct (p_design p); [destruct (m_des m)| |]; intros H; inversion H; auto.
Qed.

Lemma succeeded_app (h1 h2 : history V) : succeeded (h1 ++ h2) = succeeded h1 ++ succeeded h2.
Proof. apply flat_map_app. Qed.

Lemma run_fields ops : forall m m' h, mp_run m ops = (m', h) ->
  map fst h = ops /\
  m_od m' = m_od m ++ od_points h /\
  des_list m' = des_list m ++ design_points h /\
  m_conns m' = m_conns m ++ des_od_conns h /\
  m_params m' = m_params m ++ params h /\
  skip_opt m' = opt_last (skip_opt m) (succeeded h).
Proof.
  induction ops as [|o r IH]; intros m m' h H; cbn [mp_run] in H.
  - inversion H; subst. cbn. rewrite !app_nil_r. repeat split; reflexivity.
  - destruct (mp_step m o) as [m1 e] eqn:Es. destruct (mp_run m1 r) as [m2 log] eqn:Er.
    inversion H; subst m2 h. destruct (IH _ _ _ Er) as [H0 [H1 [H2 [H3 [H4 H5]]]]].
    destruct (step_fields _ _ _ _ Es) as [S1 [S2 [S3 [S4 [S5 _]]]]].
    change ((o, e) :: log) with ([(o, e)] ++ log).
    unfold od_points, design_points, des_od_conns, params. rewrite !succeeded_app, !flat_map_app.
    unfold opt_last. rewrite fold_left_app. fold (opt_last (skip_opt m) (succeeded [(o, e)])).
    rewrite H1, S1, H2, S2, H3, S3, H4, S4, H5, S5, <- !app_assoc. cbn [map app fst]. rewrite H0. auto 10.
Qed.

(* consistency: des_od conns or defaults imply a design point exists; once set it stays *)
Definition minv m : Prop :=
  ((m_conns m <> [] \/ m_default m = true) -> m_des m <> None /\ m_od m <> []) /\ dwf (m_params m).
Lemma minv_step m o m' e : minv m -> mp_step m o = (m', e) -> minv m'.
Proof.
  unfold minv, mp_step. intros [H1 H2]. destruct o as [n v|s t|sk|n p].
  - destruct (dmem (m_params m) n); intros H; inversion H; subst; cbn; auto. split; auto. apply dwf_dset; auto.
  - destruct (m_des m) as [d|] eqn:Ed; [destruct (m_od m) as [|x l] eqn:Eo|]; intros H; inversion H; subst; cbn; auto.
    all: try rewrite Ed; try rewrite Eo; auto. split; auto. intros _. split; discriminate.
  - destruct (m_des m) as [d|] eqn:Ed; [destruct (m_od m) as [|x l] eqn:Eo|]; intros H; inversion H; subst; cbn; auto.
    all: try rewrite Ed; try rewrite Eo; auto. split; auto. intros _. split; discriminate.
  - destruct (p_design p); [destruct (m_des m) as [d|] eqn:Ed| |]; intros H; inversion H; subst; cbn; auto.
    all: try rewrite Ed; auto.
    + split; auto. intros Hc. destruct (H1 Hc). split; [discriminate|auto].
    + split; auto. intros Hc. destruct (H1 Hc). split; auto. destruct (m_od m); discriminate.
Qed.
Lemma minv_run ops : forall m m' h, minv m -> mp_run m ops = (m', h) -> minv m'.
Proof.
  induction ops as [|o r IH]; intros m m' h Hi H; cbn [mp_run] in H.
  - inversion H; subst; auto.
  - destruct (mp_step m o) as [m1 e] eqn:Es. destruct (mp_run m1 r) as [m2 log] eqn:Er.
    inversion H; subst. eapply IH; [|exact Er]. eapply minv_step; eauto.
Qed.
Lemma minv_init : minv mp_init.
Proof. split; [intros [H|H]; cbn in H; [congruence|discriminate]|apply dwf_nil]. Qed.

(* ---- configure ---- *)
Lemma flat_map_flat_map {A B C} (f : A -> list B) (h : B -> list C) l :
  flat_map h (flat_map f l) = flat_map (fun x => flat_map h (f x)) l.
Proof. induction l; simpl; auto. rewrite flat_map_app. congruence. Qed.

Definition a_conn (a : action V) := match a with Connect s t => [(s, t)] | _ => [] end.
Definition a_prom (a : action V) := match a with Promote p v => [(p, v)] | _ => [] end.
Definition a_def (a : action V) := match a with SetDefault p v => [(p, v)] | _ => [] end.

Lemma fm_conn_map {A} (f : A -> string * string) l :
  flat_map a_conn (map (fun x => Connect (fst (f x)) (snd (f x))) l) = map f l.
Proof. induction l as [|x l IH]; simpl; auto. rewrite IH. now destruct (f x). Qed.
Lemma fm_conn_prom {A} (f : A -> string * string) l :
  flat_map a_conn (map (fun x => Promote (fst (f x)) (snd (f x))) l) = [].
Proof. induction l; simpl; auto. Qed.
Lemma fm_prom_map {A} (f : A -> string * string) l :
  flat_map a_prom (map (fun x => Promote (fst (f x)) (snd (f x))) l) = map f l.
Proof. induction l as [|x l IH]; simpl; auto. rewrite IH. now destruct (f x). Qed.
Lemma fm_prom_conn {A} (f : A -> string * string) l :
  flat_map a_prom (map (fun x => Connect (fst (f x)) (snd (f x))) l) = [].
Proof. induction l; simpl; auto. Qed.
Lemma fm_def_prom {A} (f : A -> string * string) l :
  flat_map a_def (map (fun x => Promote (fst (f x)) (snd (f x))) l) = [].
Proof. induction l; simpl; auto. Qed.
Lemma fm_def_conn {A} (f : A -> string * string) l :
  flat_map a_def (map (fun x => Connect (fst (f x)) (snd (f x))) l) = [].
Proof. induction l; simpl; auto. Qed.

Lemma flat_map_nil {A B} (f : A -> list B) l : (forall x, f x = []) -> flat_map f l = [].
Proof. intros H. induction l; simpl; auto. rewrite H, IHl. auto. Qed.
Lemma flat_map_ext' {A B} (f h : A -> list B) l : (forall x, f x = h x) -> flat_map f l = flat_map h l.
Proof. intros H. induction l; simpl; auto. rewrite H, IHl. auto. Qed.


Lemma connections_app (a b : list (action V)) : connections (a ++ b) = connections a ++ connections b.
Proof. apply flat_map_app. Qed.
Lemma promotions_app (a b : list (action V)) : promotions (a ++ b) = promotions a ++ promotions b.
Proof. apply flat_map_app. Qed.
Lemma defaults_app (a b : list (action V)) : defaults (a ++ b) = defaults a ++ defaults b.
Proof. apply flat_map_app. Qed.

Section C.
Variables (m : mp V) (dn : string) (dp : point).
Hypothesis Hd : m_des m = Some (dn, dp).
Let P := flat_map (fun pv => SetDefault (fst pv) (snd pv) :: Promote dn (fst pv)
                              :: map (fun od => Promote (fst od) (fst pv)) (m_od m)) (m_params m).
Let C := flat_map (fun st => map (fun od => Connect (V:=V) (dot dn (fst st)) (dot (fst od) (snd st))) (m_od m)) (m_conns m).
Let Df elems := if m_default m then flat_map (fun el =>
              if skipped (m_skip m) (fst el) then []
              else match snd el with
                   | None => []
                   | Some cs => flat_map (fun st => map (fun od =>
                        Connect (V:=V) (dot dn (dot (fst el) (fst st))) (dot (fst od) (dot (fst el) (snd st)))) (m_od m)) cs
                   end) elems else [].
Lemma conf_eq (elems : list (string * option (list (string * string)))) : configure m elems = Ok (P ++ C ++ Df elems).
Proof.
  unfold configure.
  assert (conf_params m = Ok P) as ->.
  { unfold conf_params, P. rewrite Hd. destruct (m_params m); reflexivity. }
  assert (conf_conns m = Ok C) as ->.
  { unfold conf_conns, C. rewrite Hd. destruct (m_conns m); reflexivity. }
  assert (conf_default m elems = Ok (Df elems)) as ->.
  { unfold conf_default, Df. rewrite Hd. destruct (m_default m); reflexivity. }
  reflexivity.
Qed.
Lemma conn_P : connections P = [].
Proof.
  unfold P, connections. rewrite flat_map_flat_map. apply flat_map_nil. intros x. cbn [flat_map app].
  induction (m_od m); simpl; auto.
Qed.
Lemma conn_C : connections C = flat_map (fun st => map (fun od => (dot dn (fst st), dot (fst od) (snd st))) (m_od m)) (m_conns m).
Proof.
  unfold C, connections. rewrite flat_map_flat_map. apply flat_map_ext'. intros x.
  induction (m_od m); simpl; auto. f_equal; auto.
Qed.
Lemma conn_D elems : connections (Df elems) = if m_default m then
          flat_map (fun el => if skipped (m_skip m) (fst el) then [] else
             match snd el with None => [] | Some cs =>
               flat_map (fun st => map (fun od => (dot dn (dot (fst el) (fst st)), dot (fst od) (dot (fst el) (snd st)))) (m_od m)) cs end) elems
        else [].
Proof.
  unfold Df, connections. destruct (m_default m); auto. rewrite flat_map_flat_map. apply flat_map_ext'. intros x.
  destruct (skipped (m_skip m) (fst x)); auto. destruct (snd x) as [cs|]; auto.
  rewrite flat_map_flat_map. apply flat_map_ext'. intros y.
  induction (m_od m); simpl; auto. f_equal; auto.
Qed.
Lemma prom_P : promotions P = flat_map (fun pv => (dn, fst pv) :: map (fun od => (fst od, fst pv)) (m_od m)) (m_params m).
Proof.
  unfold P, promotions. rewrite flat_map_flat_map. apply flat_map_ext'. intros x. cbn [flat_map app].
  f_equal. induction (m_od m); simpl; auto. f_equal; auto.
Qed.
Lemma prom_C : promotions C = [].
Proof.
  unfold C, promotions. rewrite flat_map_flat_map. apply flat_map_nil. intros x.
  induction (m_od m); simpl; auto.
Qed.
Lemma prom_D elems : promotions (Df elems) = [].
Proof.
  unfold Df, promotions. destruct (m_default m); auto. rewrite flat_map_flat_map. apply flat_map_nil. intros x.
  destruct (skipped (m_skip m) (fst x)); auto. destruct (snd x) as [cs|]; auto.
  rewrite flat_map_flat_map. apply flat_map_nil. intros y. induction (m_od m); simpl; auto.
Qed.
Lemma def_P : defaults P = m_params m.
Proof.
  unfold P, defaults. rewrite flat_map_flat_map.
  rewrite (flat_map_ext' _ (fun x => [x])).
  - induction (m_params m); simpl; congruence.
  - intros [k v]. cbn [flat_map app fst snd]. f_equal. induction (m_od m); simpl; auto.
Qed.
Lemma def_C : defaults C = [].
Proof.
  unfold C, defaults. rewrite flat_map_flat_map. apply flat_map_nil. intros x.
  induction (m_od m); simpl; auto.
Qed.
Lemma def_D elems : defaults (Df elems) = [].
Proof.
  unfold Df, defaults. destruct (m_default m); auto. rewrite flat_map_flat_map. apply flat_map_nil. intros x.
  destruct (skipped (m_skip m) (fst x)); auto. destruct (snd x) as [cs|]; auto.
  rewrite flat_map_flat_map. apply flat_map_nil. intros y. induction (m_od m); simpl; auto.
Qed.

Lemma configure_spec elems :
  exists acts, configure m elems = Ok acts /\
  connections acts =
    flat_map (fun st => map (fun od => (dot dn (fst st), dot (fst od) (snd st))) (m_od m)) (m_conns m)
    ++ (if m_default m then
          flat_map (fun el => if skipped (m_skip m) (fst el) then [] else
             match snd el with None => [] | Some cs =>
               flat_map (fun st => map (fun od => (dot dn (dot (fst el) (fst st)), dot (fst od) (dot (fst el) (snd st)))) (m_od m)) cs end) elems
        else []) /\
  promotions acts = flat_map (fun pv => (dn, fst pv) :: map (fun od => (fst od, fst pv)) (m_od m)) (m_params m) /\
  defaults acts = m_params m.
Proof.
  exists (P ++ C ++ Df elems). split; [apply conf_eq|].
  rewrite !connections_app, !promotions_app, !defaults_app.
  rewrite conn_P, conn_C, conn_D, prom_P, prom_C, prom_D, def_P, def_C, def_D. rewrite !app_nil_r. auto.
Qed.
End C.

(* ---- history level ---- *)
Section H.
Variables (ops : list (mp_op V)) (m : mp V) (h : history V).
Hypothesis Hrun : mp_run mp_init ops = (m, h).

Lemma hist_fields : m_od m = od_points h /\ des_list m = design_points h /\ m_conns m = des_od_conns h /\ m_params m = params h /\ skip_opt m = last_skip h /\ map fst h = ops.
Proof.
  destruct (run_fields ops _ _ _ Hrun) as [H0 [H1 [H2 [H3 [H4 H5]]]]].
  cbn [mp_init m_od m_conns m_params] in *. repeat split; auto.
Qed.

Lemma one_design : List.length (design_points h) <= 1.
Proof.
  destruct hist_fields as [_ [<- _]]. unfold des_list. destruct (m_des m); simpl; lia.
Qed.
Lemma params_nodup : NoDup (map fst (params h)).
Proof.
  destruct hist_fields as [_ [_ [_ [<- _]]]]. exact (proj2 (minv_run _ _ _ _ minv_init Hrun)).
Qed.

Lemma hist_configure dn dp elems : design_points h = [(dn, dp)] ->
  exists acts, configure m elems = Ok acts /\ connections acts =
    flat_map (fun st => map (fun od => (dot dn (fst st), dot (fst od) (snd st))) (od_points h)) (des_od_conns h)
    ++ match last_skip h with
       | None => []
       | Some sk => flat_map (fun el => if skipped sk (fst el) then [] else
             match snd el with None => [] | Some cs =>
               flat_map (fun st => map (fun od => (dot dn (dot (fst el) (fst st)), dot (fst od) (dot (fst el) (snd st)))) (od_points h)) cs end) elems
       end /\ promotions acts = flat_map (fun pv => (dn, fst pv) :: map (fun od => (fst od, fst pv)) (od_points h)) (params h) /\ defaults acts = params h.
Proof.
  intros Hdp. destruct hist_fields as [F1 [F2 [F3 [F4 [F5 _]]]]].
  assert (Hd : m_des m = Some (dn, dp)).
  { unfold des_list in F2. rewrite Hdp in F2. destruct (m_des m); inversion F2; auto. }
  destruct (configure_spec m dn dp Hd elems) as [acts [H1 [H2 [H3 H4]]]].
  exists acts. split; auto. rewrite <- F1, <- F3, <- F4, <- F5. unfold skip_opt.
  split; [|auto]. rewrite H2. destruct (m_default m); auto.
Qed.

Lemma hist_no_design elems : design_points h = [] ->
  configure m elems = match params h with [] => Ok [] | _ => Err AttributeError end.
Proof.
  intros Hdp. destruct hist_fields as [F1 [F2 [F3 [F4 [F5 _]]]]].
  assert (Hd : m_des m = None).
  { unfold des_list in F2. rewrite Hdp in F2. destruct (m_des m); [discriminate|auto]. }
  destruct (minv_run _ _ _ _ minv_init Hrun) as [Hi _].
  assert (Hc : m_conns m = []).
  { destruct (m_conns m) eqn:E; auto. exfalso. destruct Hi; [left; discriminate|]. congruence. }
  assert (Hdf : m_default m = false).
  { destruct (m_default m) eqn:E; auto. exfalso. destruct Hi; [right; auto|]. congruence. }
  unfold configure, conf_params, conf_conns, conf_default. rewrite Hd, Hc, Hdf, <- F4.
  destruct (m_params m); reflexivity.
Qed.
End H.
End M.
