From Verif Require Import Lib_R Lib_Loop Model_Static.
Open Scope string_scope. Open Scope list_scope. Open Scope R_scope.

Lemma near_keep_gt (e : env) i x a : a < e x -> exists d : posreal, forall t, Rabs (t - e i) < d -> a < upd e i t x.
Proof.
  intros H. destruct (var_eq_dec i x) as [->|N].
  - destruct (near_gt _ _ H) as [d Hd]. exists d. intros t Ht. rewrite upd_eq. auto.
  - exists (mkposreal 1 Rlt_0_1). intros t _. rewrite upd_neq; auto.
Qed.
Lemma near_keep_lt2 (e : env) i x y : x <> y -> e x < e y -> exists d : posreal, forall t, Rabs (t - e i) < d -> upd e i t x < upd e i t y.
Proof.
  intros N H. assert (P : 0 < e y - e x) by lra. exists (mkposreal _ P). cbn [pos]. intros t Ht. apply Rabs_def2 in Ht.
  destruct (var_eq_dec i x) as [->|Nx]; [rewrite upd_eq, upd_neq; auto; lra|]. rewrite (upd_neq e i t x) by auto.
  destruct (var_eq_dec i y) as [->|Ny]; [rewrite upd_eq; lra|]. rewrite upd_neq; auto.
Qed.
(* a component that agrees near every point of the domain with one whose expressions have no case distinction *)
Ltac jexact_loc c sm un locp fin :=
  apply jac_exact_intro; intros ?e ?old ?o ?i ?Hd ?Ho ?Hi; cunfold c;
  match goal with Ho : In ?o _, Hi : In ?i _ |- _ => inlist Ho; inlist Hi end;
  (first [ left; eexists; split; [intros ?J; un; vsimp; reflexivity|]
         | right; split; [intros ?e0 ?J; un; vsimp; reflexivity|]; jinit_tac ]);
  (match goal with |- derivable_pt_lim (fun t => ?f (upd ?e ?i t) ?old ?o) _ _ => apply (dl_local _ (fun t => sm (upd e i t) old o)) end; [locp|]);
  dstart ltac:(unfold sm; cbv zeta); dfin fin.

Definition pc_smooth (e old : env) : env :=
  let Vs := sqrt (e (V "gamma") * e (V "R") * e (V "Ts")) in let Vel := sqrt (2 * (e (V "ht") - e (V "hs"))) in
  let o := upd old (V "Vsonic") Vs in
  let o := upd o (V "V") Vel in
  let o := upd o (V "MN") (Vel / Vs) in
  upd o (V "area") (e (V "W") / (e (V "rho") * Vel)).
Definition ps_phys (e : env) : Prop := 0 < e (V "gamma") /\ 0 < e (V "R") /\ 0 < e (V "Ts") /\ e (V "rho") <> 0 /\ e (V "hs") < e (V "ht").
Lemma pc_local e i old o : e (V "hs") < e (V "ht") -> exists d : posreal, forall t, Rabs (t - e i) < d -> pv_compute (upd e i t) old o = pc_smooth (upd e i t) old o.
Proof.
  intros H. destruct (near_keep_lt2 e i (V "hs") (V "ht") ltac:(discriminate) H) as [d Hd]. exists d. intros t Ht. specialize (Hd t Ht).
  unfold pv_compute, pc_smooth, pv_V, pv_Vsonic. destruct (Rle_dec _ _); [reflexivity|lra].
Qed.



Lemma vs_pos e : 0 < e (V "gamma") -> 0 < e (V "R") -> 0 < e (V "Ts") -> 0 < pv_Vsonic e.
Proof. intros. unfold pv_Vsonic. apply sqrt_lt_R0. repeat apply Rmult_lt_0_compat; auto. Qed.
Lemma vs_sqr e : 0 < e (V "gamma") -> 0 < e (V "R") -> 0 < e (V "Ts") -> e (V "R") = pv_Vsonic e * pv_Vsonic e / (e (V "gamma") * e (V "Ts")).
Proof.
  intros. unfold pv_Vsonic. rewrite sqrt_sqrt; [field; lra|]. repeat apply Rmult_le_pos; lra.
Qed.
Lemma pvV_up e : e (V "hs") <= e (V "ht") -> pv_V e = sqrt (2 * (e (V "ht") - e (V "hs"))).
Proof. intros. unfold pv_V. destruct (Rle_dec _ _); [reflexivity|lra]. Qed.
Lemma pvV_pos e : e (V "hs") < e (V "ht") -> 0 < pv_V e.
Proof. intros. rewrite pvV_up by lra. apply sqrt_lt_R0. lra. Qed.
(* names the speed of sound s, eliminates the gas constant in its favour *)
Ltac sonic e Hg HR HT :=
  let Ps := fresh "Ps" in let Es := fresh "Es" in let s := fresh "s" in
  pose proof (vs_pos e Hg HR HT) as Ps; pose proof (vs_sqr e Hg HR HT) as Es;
  try change (sqrt (e (V "gamma") * e (V "R") * e (V "Ts"))) with (pv_Vsonic e) in *;
  set (s := pv_Vsonic e) in *; clearbody s; try rewrite Es in *.
Lemma ps_calc_exact : jac_exact ps_calc ps_phys.
Proof.
  jexact_loc ps_calc pc_smooth ltac:(unfold pv_compute, pv_partials in *; cbv zeta in * ) ltac:(apply pc_local; apply Hd)
   ltac:(idtac).
  all: try exact Logic.I.
  all: destruct Hd as (Hg & HR & HT & Hr & Hh); pose proof (pvV_pos e Hh) as Pv; pose proof (pvV_up e (Rlt_le _ _ Hh)) as Ev.
  all: try (destruct (Rle_dec _ _) as [_|]; [|lra]).
  all: change (e (V "ht") + - e (V "hs")) with (e (V "ht") - e (V "hs")); rewrite <- ?Ev.
  all: pose proof (vs_pos e Hg HR HT) as Ps; pose proof (vs_sqr e Hg HR HT) as Es.
  all: change (sqrt (e (V "gamma") * e (V "R") * e (V "Ts"))) with (pv_Vsonic e).
  all: try match goal with |- 0 < _ /\ _ => split end; try match goal with |- _ <> 0 /\ _ => split end.
  all: try exact Logic.I. 
  all: try solve [lra | repeat apply Rmult_lt_0_compat; lra | apply Rgt_not_eq; lra | apply Rmult_integral_contrapositive_currified; lra ].
  all: rewrite ?Es; field; lra.
Qed.
Lemma ps_calc_declared : jac_declared ps_calc.
Proof. jdeclared ps_calc ltac:(unfold pv_partials; cbv zeta). Qed.
Lemma ps_calc_writes : writes_all ps_calc.
Proof. wall ps_calc ltac:(unfold pv_compute, pv_V, pv_Vsonic; cbv zeta). Qed.

(* the inverted branch *)
Definition pc_smooth2 (e old : env) : env :=
  let Vs := sqrt (e (V "gamma") * e (V "R") * e (V "Ts")) in let Vel := sqrt (2 * (e (V "hs") - e (V "ht"))) in
  let o := upd old (V "Vsonic") Vs in
  let o := upd o (V "V") Vel in
  let o := upd o (V "MN") (Vel / Vs) in
  upd o (V "area") (e (V "W") / (e (V "rho") * Vel)).
Definition ps_phys2 (e : env) : Prop := 0 < e (V "gamma") /\ 0 < e (V "R") /\ 0 < e (V "Ts") /\ e (V "rho") <> 0 /\ e (V "ht") < e (V "hs").
Lemma pc_local2 e i old o : e (V "ht") < e (V "hs") -> exists d : posreal, forall t, Rabs (t - e i) < d -> pv_compute (upd e i t) old o = pc_smooth2 (upd e i t) old o.
Proof.
  intros H. destruct (near_keep_lt2 e i (V "ht") (V "hs") ltac:(discriminate) H) as [d Hd]. exists d. intros t Ht. specialize (Hd t Ht).
  unfold pv_compute, pc_smooth2, pv_V, pv_Vsonic. destruct (Rle_dec _ _); [lra|reflexivity].
Qed.
Lemma pvV_dn e : e (V "ht") < e (V "hs") -> pv_V e = sqrt (2 * (e (V "hs") - e (V "ht"))).
Proof. intros. unfold pv_V. destruct (Rle_dec _ _); [lra|reflexivity]. Qed.
Lemma pvV_pos2 e : e (V "ht") < e (V "hs") -> 0 < pv_V e.
Proof. intros. rewrite pvV_dn by lra. apply sqrt_lt_R0. lra. Qed.
Lemma ps_calc_exact2 : jac_exact ps_calc ps_phys2.
Proof.
  jexact_loc ps_calc pc_smooth2 ltac:(unfold pv_compute, pv_partials in *; cbv zeta in * ) ltac:(apply pc_local2; apply Hd)
   ltac:(idtac).
  all: try exact Logic.I.
  all: destruct Hd as (Hg & HR & HT & Hr & Hh); pose proof (pvV_pos2 e Hh) as Pv; pose proof (pvV_dn e Hh) as Ev.
  all: try (destruct (Rle_dec _ _) as [|_]; [lra|]).
  all: change (e (V "hs") + - e (V "ht")) with (e (V "hs") - e (V "ht")); rewrite <- ?Ev.
  all: pose proof (vs_pos e Hg HR HT) as Ps; pose proof (vs_sqr e Hg HR HT) as Es.
  all: change (sqrt (e (V "gamma") * e (V "R") * e (V "Ts"))) with (pv_Vsonic e).
  all: try match goal with |- 0 < _ /\ _ => split end; try match goal with |- _ <> 0 /\ _ => split end.
  all: try exact Logic.I.
  all: try solve [lra | repeat apply Rmult_lt_0_compat; lra | apply Rgt_not_eq; lra | apply Rmult_integral_contrapositive_currified; lra ].
  all: rewrite ?Es; field; lra.
Qed.

(* ---- PsResid, Mach number mode ---- *)
Definition pm_smooth (e old : env) : env :=
  let MN := e (V "MN") in let Vs := sqrt (e (V "gamma") * e (V "R") * e (V "Ts")) in
  let r := upd old (V "area") (e (V "W") / (e (V "rho") * Vs * MN) - e (V "area")) in
  let r := upd r (V "Vsonic") (Vs - e (V "Vsonic")) in
  let r := upd r (V "V") (MN * Vs - e (V "V")) in
  upd r (V "Ps") ((e (V "hs") + MN ^ 2 / 2 * e (V "gamma") * (e (V "Ts") * e (V "R")) - e (V "ht")) / e (V "ht")).
Lemma tiny_pos : 0 < / 10 ^ 16. Proof. apply Rinv_0_lt_compat, pow_lt. lra. Qed.
Definition mn_dom (e : env) : Prop :=
  0 < e (V "gamma") /\ 0 < e (V "R") /\ 0 < e (V "Ts") /\ e (V "rho") <> 0 /\ e (V "ht") <> 0 /\ / 10 ^ 16 < e (V "MN").
Lemma pm_local e i old o : / 10 ^ 16 < e (V "MN") -> exists d : posreal, forall t, Rabs (t - e i) < d -> pm_resid (upd e i t) old o = pm_smooth (upd e i t) old o.
Proof.
  intros H. destruct (near_keep_gt e i (V "MN") _ H) as [d Hd]. exists d. intros t Ht. specialize (Hd t Ht).
  unfold pm_resid, pm_smooth, pm_area, pv_Vsonic, ps_resid_Ps, tiny. destruct (Rlt_dec _ _) as [L|_]; [exfalso; exact (Rlt_irrefl _ (Rlt_trans _ _ _ L Hd))|reflexivity].
Qed.
Lemma ps_resid_MN_exact : jac_exact ps_resid_MN mn_dom.
Proof.
  apply jac_exact_intro. intros e old o i Hd Ho Hi. cunfold ps_resid_MN. unfold ps_base_ins, ps_base_decls in *.
  destruct Hd as (Hg & HR & HT & Hr & Hh & Hm). assert (Hp : 0 < e (V "MN")) by (eapply Rlt_trans; [apply tiny_pos|exact Hm]).
  inlist Ho; inlist Hi;
  (first [ left; eexists; split; [intros ?J; unfold pm_linearize, tiny; cbv zeta; destruct (Rle_dec _ _) as [_|Hn]; [|exfalso; apply Hn, Rlt_le; exact Hm]; vsimp; reflexivity|]
         | right; split; [intros ?e0 ?J; unfold pm_linearize, tiny; cbv zeta; destruct (Rle_dec _ _); vsimp; reflexivity|]; jinit_tac ]);
  (match goal with |- derivable_pt_lim (fun t => ?f (upd ?e ?i t) ?old ?o) _ _ => apply (dl_local _ (fun t => pm_smooth (upd e i t) old o)) end; [apply pm_local; assumption|]);
  dstart ltac:(unfold pm_smooth; cbv zeta); apply is_derive_Reals; auto_derive.
  all: try exact Logic.I.
  all: pose proof (vs_pos e Hg HR HT) as Ps; pose proof (vs_sqr e Hg HR HT) as Es.
  all: clear Hm; try rewrite (Rmult_comm (e (V "R")) (e (V "gamma"))).
  all: change (sqrt (e (V "gamma") * e (V "R") * e (V "Ts"))) with (pv_Vsonic e).
  all: try match goal with |- 0 < _ /\ _ => split end; try match goal with |- _ <> 0 /\ _ => split end.
  all: try exact Logic.I.
  all: try solve [lra | repeat apply Rmult_lt_0_compat; lra | apply Rgt_not_eq; lra | repeat apply Rmult_integral_contrapositive_currified; lra ].
  all: rewrite ?Es; field; lra.
Qed.
Lemma ps_resid_MN_declared : jac_declared ps_resid_MN.
Proof.
  intros e J o i Hn. cunfold ps_resid_MN. unfold ps_base_ins, ps_base_decls in *. jdecl_split. unfold pm_linearize; cbv zeta. destruct (Rle_dec _ _); jdecl_fin.
Qed.
Lemma ps_resid_MN_writes : writes_all ps_resid_MN.
Proof. wall ps_resid_MN ltac:(unfold ps_base_ins, ps_base_decls, pm_resid, pm_area, ps_resid_Ps, pv_Vsonic in *; cbv zeta). Qed.

(* ---- PsResid, area mode ---- *)
Definition pa_smooth (e old : env) : env :=
  let Vs := sqrt (e (V "gamma") * e (V "R") * e (V "Ts")) in let MN := e (V "W") / (e (V "rho") * Vs * e (V "area")) in
  let r := upd old (V "MN") (MN - e (V "MN")) in
  let r := upd r (V "Vsonic") (Vs - e (V "Vsonic")) in
  let r := upd r (V "V") (MN * Vs - e (V "V")) in
  upd r (V "Ps") ((e (V "hs") + MN ^ 2 / 2 * e (V "gamma") * (e (V "Ts") * e (V "R")) - e (V "ht")) / e (V "ht")).
Definition area_dom (e : env) : Prop :=
  0 < e (V "gamma") /\ 0 < e (V "R") /\ 0 < e (V "Ts") /\ e (V "rho") <> 0 /\ e (V "ht") <> 0 /\ e (V "area") <> 0.
Lemma near_keep_ne (e : env) i x : e x <> 0 -> exists d : posreal, forall t, Rabs (t - e i) < d -> upd e i t x <> 0.
Proof.
  intros H. destruct (var_eq_dec i x) as [->|N].
  - exists (mkposreal _ (Rabs_pos_lt _ H)). cbn [pos]. intros t Ht. rewrite upd_eq. intros ->. rewrite Rminus_0_l, Rabs_Ropp in Ht. lra.
  - exists (mkposreal 1 Rlt_0_1). intros t _. rewrite upd_neq; auto.
Qed.
Lemma pa_MN_ok e : 0 < e (V "gamma") -> 0 < e (V "R") -> 0 < e (V "Ts") -> e (V "rho") <> 0 -> e (V "area") <> 0 ->
  pa_MN e = e (V "W") / (e (V "rho") * pv_Vsonic e * e (V "area")).
Proof.
  intros Hg HR HT Hr Ha. unfold pa_MN. pose proof (vs_pos e Hg HR HT). destruct (Req_EM_T _ _) as [E|]; [|reflexivity].
  exfalso. apply Rmult_integral in E as [E|E]; [|auto]. apply Rmult_integral in E as [E|E]; [auto|lra].
Qed.
Lemma pa_local e i old o : area_dom e -> exists d : posreal, forall t, Rabs (t - e i) < d -> pa_resid (upd e i t) old o = pa_smooth (upd e i t) old o.
Proof.
  intros (Hg & HR & HT & Hr & _ & Ha).
  destruct (near_keep_gt e i (V "gamma") _ Hg) as [d1 D1]. destruct (near_keep_gt e i (V "R") _ HR) as [d2 D2]. destruct (near_keep_gt e i (V "Ts") _ HT) as [d3 D3].
  destruct (near_keep_ne e i (V "rho") Hr) as [d4 D4]. destruct (near_keep_ne e i (V "area") Ha) as [d5 D5].
  set (d := Rmin d1 (Rmin d2 (Rmin d3 (Rmin d4 d5)))).
  assert (P : 0 < d) by (unfold d; repeat apply Rmin_glb_lt; apply cond_pos).
  exists (mkposreal d P). cbn [pos]. intros t Ht.
  assert (d <= d1 /\ d <= d2 /\ d <= d3 /\ d <= d4 /\ d <= d5) as (L1 & L2 & L3 & L4 & L5).
  { unfold d. repeat split; repeat first [apply Rmin_l | eapply Rle_trans; [apply Rmin_r|] | apply Rle_refl]. }
  unfold pa_resid, pa_smooth, ps_resid_Ps. rewrite pa_MN_ok; [reflexivity|apply D1|apply D2|apply D3|apply D4|apply D5]; lra.
Qed.
Ltac area_tac e Hg HR HT Hr Hh Ha HMN :=
  (first [ left; eexists; split; [intros ?J; unfold pa_linearize; cbv zeta; vsimp; reflexivity|]
         | right; split; [intros ?e0 ?J; unfold pa_linearize; cbv zeta; vsimp; reflexivity|]; jinit_tac ]);
  (match goal with |- derivable_pt_lim (fun t => ?f (upd ?e ?i t) ?old ?o) _ _ => apply (dl_local _ (fun t => pa_smooth (upd e i t) old o)) end; [apply pa_local; repeat split; assumption|]);
  dstart ltac:(unfold pa_smooth; cbv zeta); apply is_derive_Reals; auto_derive;
  (try exact Logic.I); rewrite ?(pa_MN_ok e Hg HR HT Hr Ha);
  pose proof (vs_pos e Hg HR HT) as ?Ps; pose proof (vs_sqr e Hg HR HT) as ?Es;
  change (sqrt (e (V "gamma") * e (V "R") * e (V "Ts"))) with (pv_Vsonic e);
  (repeat match goal with |- _ /\ _ => split end);
  (try exact Logic.I);
  (try solve [lra | repeat apply Rmult_lt_0_compat; lra | apply Rgt_not_eq; lra | repeat apply Rmult_integral_contrapositive_currified; lra ]).
Lemma ps_resid_area_exact : jac_exact ps_resid_area (fun e => area_dom e /\ e (V "MN") = e (V "W") / (e (V "rho") * pv_Vsonic e * e (V "area"))).
Proof.
  apply jac_exact_intro. intros e old o i [Hd HM] Ho Hi. cunfold ps_resid_area. unfold ps_base_ins, ps_base_decls in *.
  destruct Hd as (Hg & HR & HT & Hr & Hh & Ha).
  inlist Ho; inlist Hi; area_tac e Hg HR HT Hr Hh Ha HM.
  all: rewrite ?HM; rewrite ?Es; field; lra.
Qed.
Lemma ps_resid_area_exact_on : jac_exact_on ps_resid_area area_dom (fun o i => o <> V "Ps" \/ ~ In i [V "ht"; V "Ts"; V "R"; V "gamma"]).
Proof.
  apply jac_exact_on_intro. intros e old o i Hd Ho Hi Hs. cunfold ps_resid_area. unfold ps_base_ins, ps_base_decls in *.
  destruct Hd as (Hg & HR & HT & Hr & Hh & Ha).
  inlist Ho; inlist Hi; cbn [In] in Hs; try (exfalso; tauto); area_tac e Hg HR HT Hr Hh Ha Hh.
  all: rewrite ?Es; field; lra.
Qed.
Lemma ps_resid_area_declared : jac_declared ps_resid_area.
Proof.
  intros e J o i Hn. cunfold ps_resid_area. unfold ps_base_ins, ps_base_decls in *. jdecl_split. unfold pa_linearize; cbv zeta. jdecl_fin.
Qed.
Lemma ps_resid_area_writes : writes_all ps_resid_area.
Proof. wall ps_resid_area ltac:(unfold ps_base_ins, ps_base_decls, pa_resid, pa_MN, ps_resid_Ps, pv_Vsonic in *; cbv zeta). Qed.
