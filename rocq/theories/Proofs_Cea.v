(* What a converged SetTotalTP is, in terms of the components of Model_Equil. *)
From Coq Require Import Lia FunctionalExtensionality.
From Verif Require Import Lib_R Lib_Loop Spec_Wire Model_Thermo Proofs_Wire Prop_Thermo Proofs_Elem Model_Equil Proofs_Equil Proofs_Props Proofs_Thermo Prop_Equil Model_Cea.
Open Scope string_scope. Open Scope list_scope. Open Scope R_scope.

(* a converged equilibrium with the linear systems solved *)
Definition equilibrium (g : gas) (T P : R) (c : nat -> R) (e : env) : Prop :=
  solved g false e /\ Proofs_Thermo.solves g e /\ (forall j, (j < np g)%nat -> MIN_CONC <= e (I "n" j)) /\ e (V "T") = T /\ e (V "P") = P /\ forall i, (i < ne g)%nat -> e (I "composition" i) = c i.
Definition prop_of (g : gas) (e : env) (x : string) : R := compute (props_calcs g) e (fun _ => 0) (V x).
Lemma u_degK : ufac "degK" = 1. Proof. reflexivity. Qed.
Lemma u_bar : ufac "bar" = 10 ^ 5. Proof. reflexivity. Qed.
Lemma u_none : ufac "" = 1. Proof. reflexivity. Qed.

Lemma Rdiv_1 x : x / 1 = x. Proof. field. Qed.
Section G.
Variable g : gas.
(* the props_calcs outputs only depend on the declared inputs *)
Lemma calcs_ext e e' x : In (V x) (outs (props_calcs g)) -> e (V "T") = e' (V "T") -> e (V "P") = e' (V "P") -> e (V "n_moles") = e' (V "n_moles") ->
  (forall j, (j < np g)%nat -> e (I "n" j) = e' (I "n" j)) -> (forall i, (i < S (ne g))%nat -> e (I "result_T" i) = e' (I "result_T" i)) ->
  (forall i, (i < S (ne g))%nat -> e (I "result_P" i) = e' (I "result_P" i)) -> prop_of g e x = prop_of g e' x.
Proof.
  intros Ho ET EP EM EN ERT ERP. 
  assert (N0 : nsum (np g) (nj_H0 g e) = nsum (np g) (nj_H0 g e')) by (apply nsum_ext; intros j Hj; unfold nj_H0, nj, h0; rewrite ET, EN by auto; reflexivity).
  assert (C1 : Cpf g e = Cpf g e') by (unfold Cpf; apply nsum_ext; intros j Hj; unfold nj; rewrite ET, EN by auto; reflexivity).
  assert (C2 : Cpe g e = Cpe g e').
  { unfold Cpe. rewrite N0, ERT by lia. f_equal. f_equal.
    - f_equal. apply nsum_ext. intros i Hi. rewrite ERT by lia. f_equal. apply nsum_ext. intros j Hj. unfold nj_H0, nj, h0. rewrite ET, EN by auto. reflexivity.
    - apply nsum_ext. intros j Hj. unfold nj_H0, nj, h0. rewrite ET, EN by auto. reflexivity. }
  assert (C3 : dlnVqdlnP g e = dlnVqdlnP g e') by (unfold dlnVqdlnP; rewrite ERP by lia; reflexivity).
  assert (C4 : dlnVqdlnT g e = dlnVqdlnT g e') by (unfold dlnVqdlnT; rewrite ERT by lia; reflexivity).
  assert (C5 : pc_Cp g e = pc_Cp g e') by (unfold pc_Cp; rewrite C1, C2; reflexivity).
  assert (C6 : pc_Cv g e = pc_Cv g e') by (unfold pc_Cv; rewrite C5, C4, C3, EM; reflexivity).
  unfold prop_of. cbn [props_calcs compute]. unfold calcs_compute. cbv zeta.
  apply calcs_outs_inv in Ho. destruct Ho as [E|[E|[E|[E|[E|[E|E]]]]]]; injection E as ->; vsimp; rewrite ?N0, ?ET, ?EP, ?EM, ?C5, ?C6, ?C3; try reflexivity.
  f_equal. apply nsum_ext. intros j Hj. unfold nj. rewrite EN by auto. reflexivity.
Qed.
Lemma ce_ext e e' old old' o : In o (outs (chem_eq g false)) -> e (V "T") = e' (V "T") -> e (V "P") = e' (V "P") -> e (V "n_moles") = e' (V "n_moles") ->
  (forall j, (j < np g)%nat -> e (I "n" j) = e' (I "n" j)) -> (forall i, (i < ne g)%nat -> e (I "pi" i) = e' (I "pi" i)) ->
  (forall i, (i < ne g)%nat -> e (I "composition" i) = e' (I "composition" i)) -> compute (chem_eq g false) e old o = compute (chem_eq g false) e' old' o.
Proof.
  intros Ho ET EP EM EN EPi EC. assert (NT : ntot g e = ntot g e') by (unfold ntot; apply nsum_ext; intros; apply EN; auto).
  apply ce_outs_inv in Ho as [(j & Hj & ->)|[(j & Hj & ->)| ->]]; cbn [chem_eq compute]; unfold ce_resid; cbn [String.eqb Ascii.eqb Bool.eqb andb].
  - rewrite (ltb_t _ _ Hj). unfold ce_resid_n. cbn [andb]. unfold mu, pi_a, ce_weight, ce_P. rewrite NT, ET, EP, EN by auto. f_equal. f_equal. apply nsum_ext. intros i Hi. rewrite EPi by auto. reflexivity.
  - rewrite (ltb_t _ _ Hj), EC by auto. f_equal. apply nsum_ext. intros i Hi. rewrite EN by auto. reflexivity.
  - rewrite NT, EM. reflexivity.
Qed.
Lemma rhs_ext e e' old old' o : In o (outs (props_rhs g)) -> e (V "T") = e' (V "T") -> e (V "n_moles") = e' (V "n_moles") ->
  (forall j, (j < np g)%nat -> e (I "n" j) = e' (I "n" j)) -> (forall i, (i < ne g)%nat -> e (I "composition" i) = e' (I "composition" i)) ->
  compute (props_rhs g) e old o = compute (props_rhs g) e' old' o.
Proof.
  intros Ho ET EM EN EC. 
  apply rhs_outs_inv in Ho as [(i & Hi & ->)|[(i & Hi & ->)|(i & j & Hi & Hj & ->)]]; cbn [props_rhs compute]; unfold rhs_compute; cbn [String.eqb Ascii.eqb Bool.eqb andb].
  - destruct (Nat.ltb i (ne g)) eqn:L.
    + apply nsum_ext. intros k Hk. rewrite EN, ET by auto. reflexivity.
    + apply Nat.ltb_ge in L. rewrite (proj2 (Nat.eqb_eq _ _)) by lia. apply nsum_ext. intros k Hk. rewrite EN, ET by auto. reflexivity.
  - destruct (Nat.ltb i (ne g)) eqn:L; [apply EC, Nat.ltb_lt; auto|]. apply Nat.ltb_ge in L. rewrite (proj2 (Nat.eqb_eq _ _)) by lia. exact EM.
  - destruct (Nat.ltb i (ne g)) eqn:L, (Nat.ltb j (ne g)) eqn:K; cbn [andb].
    + apply nsum_ext. intros k Hk. rewrite EN by auto. reflexivity.
    + apply Nat.ltb_ge in K. apply Nat.ltb_lt in L. rewrite (proj2 (Nat.eqb_eq j _)) by lia. rewrite (proj2 (Nat.eqb_neq i _)) by lia. cbn [andb]. apply EC; auto.
    + apply Nat.ltb_ge in L. apply Nat.ltb_lt in K. rewrite (proj2 (Nat.eqb_eq i _)) by lia. cbn [andb]. apply EC; auto.
    + apply Nat.ltb_ge in L, K. rewrite (proj2 (Nat.eqb_eq i _)) by lia. rewrite (proj2 (Nat.eqb_eq j _)) by lia. reflexivity.
Qed.
Lemma min_pos : 0 < MIN_CONC. Proof. unfold MIN_CONC. apply Rinv_0_lt_compat, pow_lt. lra. Qed.
Lemma d1 x : x / ufac "" = x. Proof. rewrite u_none. field. Qed.
Lemma d1' x : x / ufac "degK" = x. Proof. rewrite u_degK. field. Qed.

Ltac one x := change (x = x / 1); symmetry; apply Rdiv_1.
Lemma cea_equilibrium T P c p : cea_tp g T P c p -> exists e, equilibrium g T P c e /\ forall x, In x prop_names -> p x = prop_of g e x.
Proof.
  intros (HP & w & [Hs _] & WT & WP & WC & WX).
  assert (HC := Hs (chem_eq_sub g) ltac:(cbn; tauto)). assert (HG := Hs (group_sub "props" (thermo_calcs g) [PG ""] [PG ""]) ltac:(cbn; tauto)).
  clear Hs. cbn [chem_eq_sub srel] in HC. destruct HC as [HN HC].
  apply group_open in HG as (v & [Vs Vc] & Vi & Vo).
  assert (IN : forall x, In x ["T"; "n"; "n_moles"; "composition"; "P"] -> In x (g_ins (thermo_calcs g))).
  { intros x Hx. apply memb_in. cbn in Hx. repeat destruct Hx as [<-|Hx]; try contradiction; vm_compute; reflexivity. }
  assert (GN : forall x, gname "props" [PG ""] x = x) by (intros x; unfold gname, pname; destruct x; reflexivity).
  assert (E1 : forall x k, In x ["T"; "n"; "n_moles"; "composition"; "P"] -> v x k = w x k) by (intros x k Hx; rewrite Vi, GN by (apply IN; auto); reflexivity).
  assert (OUT : forall x, In x prop_names -> In x (g_outs (thermo_calcs g))).
  { intros x Hx. apply memb_in. cbn in Hx. repeat destruct Hx as [<-|Hx]; try contradiction; vm_compute; reflexivity. }
  assert (E2 : forall x k, In x prop_names -> v x k = w x k) by (intros x k Hx; rewrite Vo, GN by (apply OUT; auto); reflexivity).
  pose (e := fun x : var => match x with
    | V s => if String.eqb s "P" then w s 0%nat / ufac "bar" else w s 0%nat
    | I s k => if String.eqb s "result_T" then v "ls2t.x" k else if String.eqb s "result_P" then v "ls2p.x" k else w s k
    | _ => 0 end).
  exists e.
  assert (L1 := Vs (tp2ls_sub g) ltac:(cbn; tauto)). assert (L2 := Vs (ls_sub g "ls2t") ltac:(cbn; tauto)). assert (L3 := Vs (ls_sub g "ls2p") ltac:(cbn; tauto)). assert (L4 := Vs (tp2props_sub g) ltac:(cbn; tauto)).
  clear Vs. cbn [tp2ls_sub srel] in L1. cbn [ls_sub srel] in L2, L3. cbn [tp2props_sub srel] in L4.
  assert (K1 := Vc "TP2ls.lhs_TP" "ls2t.A" ltac:(cbn; tauto)). assert (K2 := Vc "TP2ls.lhs_TP" "ls2p.A" ltac:(cbn; tauto)). assert (K3 := Vc "TP2ls.rhs_T" "ls2t.b" ltac:(cbn; tauto)).
  assert (K4 := Vc "TP2ls.rhs_P" "ls2p.b" ltac:(cbn; tauto)). assert (K5 := Vc "ls2t.x" "tp2props.result_T" ltac:(cbn; tauto)). assert (K6 := Vc "ls2p.x" "tp2props.result_P" ltac:(cbn; tauto)). clear Vc.
  assert (NJ : forall j, (j < np g)%nat -> MIN_CONC <= e (I "n" j)).
  { intros j Hj. specialize (HN j Hj). unfold lout in HN. cbn in HN. rewrite Rdiv_1 in HN. exact HN. }
  assert (A1 : solved g false e).
  { split; [change (0 < w "P" 0%nat / ufac "bar"); rewrite WP, u_bar; unfold Rdiv; rewrite Rmult_assoc, Rinv_r by lra; lra|].
    split; [intros j Hj; pose proof min_pos; specialize (NJ j Hj); lra|].
    intros old o Ho. rewrite <- (HC o Ho). assert (In o (outs (chem_eq g false))) by exact Ho.
    apply ce_ext; auto; unfold impl_env.
    - destruct (in_dec _ _ _) as [i|_]; [exfalso; clear - i; apply ce_outs_inv in i as [(j & _ & Q)|[(j & _ & Q)|Q]]; discriminate Q|]. one (w "T" 0%nat).
    - destruct (in_dec _ _ _) as [i|_]; [exfalso; clear - i; apply ce_outs_inv in i as [(j & _ & Q)|[(j & _ & Q)|Q]]; discriminate Q|]. reflexivity.
    - destruct (in_dec _ _ _) as [_|i]; [one (w "n_moles" 0%nat)|]. exfalso. apply i. cbn [chem_eq outs]. rewrite !in_app_iff. cbn; tauto.
    - intros j Hj. destruct (in_dec _ _ _) as [_|i]; [one (w "n" j)|]. exfalso. apply i. cbn [chem_eq outs]. rewrite !in_app_iff. left. apply in_map, in_seq0; auto.
    - intros j Hj. destruct (in_dec _ _ _) as [_|i]; [one (w "pi" j)|]. exfalso. apply i. cbn [chem_eq outs]. rewrite !in_app_iff. right; left. apply in_map, in_seq0; auto.
    - intros j Hj. destruct (in_dec _ _ _) as [i|_]; [exfalso; clear - i; apply ce_outs_inv in i as [(k & _ & Q)|[(k & _ & Q)|Q]]; discriminate Q|]. one (w "composition" j). }
  assert (TE : e (V "T") = T) by (change (w "T" 0%nat = T); rewrite WT, u_degK; ring).
  assert (PE : e (V "P") = P) by (change (w "P" 0%nat / ufac "bar" = P); rewrite WP, u_bar; field).
  assert (RE : forall o, In o (outs (props_rhs g)) -> compute (props_rhs g) e (fun _ => 0) o = vgetm g (lout (tp2ls_sub g) v) o).
  { intros o Ho. rewrite L1 by auto. apply rhs_ext; auto.
    - unfold lin. cbn. rewrite E1, Rdiv_1 by (cbn; tauto). reflexivity.
    - unfold lin. cbn. rewrite E1, Rdiv_1 by (cbn; tauto). reflexivity.
    - intros j Hj. unfold lin. cbn. rewrite E1, Rdiv_1 by (cbn; tauto). reflexivity.
    - intros j Hj. unfold lin. cbn. rewrite E1, Rdiv_1 by (cbn; tauto). reflexivity. }
  split; [unfold equilibrium; repeat match goal with |- _ /\ _ => split end; auto|].
  - intros i Hi. cbv zeta.
    assert (O1 : In (I "rhs_T" i) (outs (props_rhs g))) by (cbn [props_rhs outs]; rewrite in_app_iff; left; apply in_map, in_seq0; lia).
    assert (O2 : In (I "rhs_P" i) (outs (props_rhs g))) by (cbn [props_rhs outs]; rewrite !in_app_iff; right; left; apply in_map, in_seq0; lia).
    assert (O3 : forall k, (k < S (ne g))%nat -> In (M "lhs_TP" i k) (outs (props_rhs g))).
    { intros k Hk. cbn [props_rhs outs]. rewrite !in_app_iff. right; right. unfold lhs_vars. apply in_flat_map. exists i. split; [apply in_seq0; lia|]. apply in_map, in_seq0; lia. }
    rewrite (RE _ O1), (RE _ O2). specialize (L2 i ltac:(unfold ne1; lia)). specialize (L3 i ltac:(unfold ne1; lia)).
    split.
    + transitivity (v "TP2ls.rhs_T" i); [|one (v "TP2ls.rhs_T" i)]. rewrite <- K3. transitivity (v "ls2t.b" i / 1); [|apply Rdiv_1]. etransitivity; [|exact L2]. apply nsum_ext. intros k Hk. rewrite (RE _ (O3 k Hk)).
      change (v "TP2ls.lhs_TP" (i * ne1 g + k)%nat / 1 * v "ls2t.x" k = v "ls2t.A" (i * ne1 g + k)%nat / 1 * (v "ls2t.x" k / 1)). rewrite !Rdiv_1, K1. reflexivity.
    + transitivity (v "TP2ls.rhs_P" i); [|one (v "TP2ls.rhs_P" i)]. rewrite <- K4. transitivity (v "ls2p.b" i / 1); [|apply Rdiv_1]. etransitivity; [|exact L3]. apply nsum_ext. intros k Hk. rewrite (RE _ (O3 k Hk)).
      change (v "TP2ls.lhs_TP" (i * ne1 g + k)%nat / 1 * v "ls2p.x" k = v "ls2p.A" (i * ne1 g + k)%nat / 1 * (v "ls2p.x" k / 1)). rewrite !Rdiv_1, K2. reflexivity.
  - intros x Hx.
    assert (Ox : In (V x) (outs (props_calcs g))) by (cbn in Hx; repeat destruct Hx as [<-|Hx]; try contradiction; cbn; tauto).
    specialize (L4 _ Ox). transitivity (vget (lout (tp2props_sub g) v) (V x)).
    + cbn [vget]. unfold lout. assert (Mx : exists m, In m (souts (tp2props_sub g)) /\ fst m = x /\ fst (snd m) = unit_of (souts (tp2props_sub g)) x)
        by (exists (x, lookup ("", "") (souts (tp2props_sub g)) x); split; [cbn in Hx; repeat destruct Hx as [<-|Hx]; try contradiction; cbn; tauto|split; reflexivity]).
      destruct Mx as (m & Mi & M1 & M2). assert (Q := WX m Mi). rewrite M1, M2 in Q. rewrite <- (E2 x 0%nat Hx) in Q.
      assert (Gn : gname (sname (tp2props_sub g)) (pout (tp2props_sub g)) x = x) by (cbn in Hx; repeat destruct Hx as [<-|Hx]; try contradiction; reflexivity).
      rewrite Gn, Q. field. apply ufac_n0.
    + rewrite L4. apply (calcs_ext _ _ x Ox).
      * change (v "T" 0%nat / 1 = w "T" 0%nat). rewrite E1, Rdiv_1 by (cbn; tauto). reflexivity.
      * change (v "P" 0%nat / ufac "bar" = w "P" 0%nat / ufac "bar"). rewrite E1 by (cbn; tauto). reflexivity.
      * change (v "n_moles" 0%nat / 1 = w "n_moles" 0%nat). rewrite E1, Rdiv_1 by (cbn; tauto). reflexivity.
      * intros j Hj. change (v "n" j / 1 = w "n" j). rewrite E1, Rdiv_1 by (cbn; tauto). reflexivity.
      * intros i Hi. change (v "tp2props.result_T" i / 1 = v "ls2t.x" i). rewrite K5, Rdiv_1. reflexivity.
      * intros i Hi. change (v "tp2props.result_P" i / 1 = v "ls2p.x" i). rewrite K6, Rdiv_1. reflexivity.
Qed.
(* conversely every equilibrium is a converged state of the group *)
Definition cea_w (e : env) : state := fun x k =>
  if String.eqb x "P" then e (V "P") * ufac "bar" else if memb x ["T"; "n_moles"] then e (V x) else if memb x ["n"; "pi"; "composition"] then e (I x k)
  else if String.eqb x "TP2ls.lhs_TP" || String.eqb x "ls2t.A" || String.eqb x "ls2p.A" then compute (props_rhs g) e (fun _ => 0) (M "lhs_TP" (k / ne1 g) (k mod ne1 g))
  else if String.eqb x "TP2ls.rhs_T" || String.eqb x "ls2t.b" then compute (props_rhs g) e (fun _ => 0) (I "rhs_T" k)
  else if String.eqb x "TP2ls.rhs_P" || String.eqb x "ls2p.b" then compute (props_rhs g) e (fun _ => 0) (I "rhs_P" k)
  else if String.eqb x "ls2t.x" || String.eqb x "tp2props.result_T" then e (I "result_T" k)
  else if String.eqb x "ls2p.x" || String.eqb x "tp2props.result_P" then e (I "result_P" k)
  else prop_of g e x * ufac (unit_of (souts (tp2props_sub g)) x).
Lemma divmod i j : (j < ne1 g)%nat -> ((i * ne1 g + j) / ne1 g = i /\ (i * ne1 g + j) mod ne1 g = j)%nat.
Proof.
  intros H. split.
  - rewrite Nat.div_add_l by lia. rewrite Nat.div_small by lia. lia.
  - rewrite Nat.add_comm, Nat.mod_add by lia. apply Nat.mod_small. lia.
Qed.
Lemma cea_make T P c e p : 0 < P -> equilibrium g T P c e -> (forall x, In x prop_names -> p x = prop_of g e x) -> cea_tp g T P c p.
Proof.
  intros HP (H1 & H2 & H3 & ET & EP & EC) Hp. split; [exact HP|]. exists (cea_w e).
  match goal with |- _ /\ _ => split end; [|repeat match goal with |- _ /\ _ => split end].
  - split; [|intros a b []]. intros s [<-|[<-|[]]].
    + split; [intros j Hj; change (MIN_CONC <= e (I "n" j) / 1); rewrite Rdiv_1; auto|].
      intros o Ho. destruct H1 as (_ & _ & H1). rewrite <- (H1 (fun _ => 0) o Ho). apply ce_ext; [exact Ho| | | | | |]; unfold impl_env.
      * destruct (in_dec _ _ _) as [i|_]; [exfalso; clear - i; apply ce_outs_inv in i as [(j & _ & Q)|[(j & _ & Q)|Q]]; discriminate Q|]. change (e (V "T") / 1 = e (V "T")). apply Rdiv_1.
      * destruct (in_dec _ _ _) as [i|_]; [exfalso; clear - i; apply ce_outs_inv in i as [(j & _ & Q)|[(j & _ & Q)|Q]]; discriminate Q|]. change (e (V "P") * ufac "bar" / ufac "bar" = e (V "P")). field. apply ufac_n0.
      * destruct (in_dec _ _ _) as [_|i]; [change (e (V "n_moles") / 1 = e (V "n_moles")); apply Rdiv_1|]. exfalso. apply i. cbn [chem_eq outs]. rewrite !in_app_iff. cbn; tauto.
      * intros j Hj. destruct (in_dec _ _ _) as [_|i]; [change (e (I "n" j) / 1 = e (I "n" j)); apply Rdiv_1|]. exfalso. apply i. cbn [chem_eq outs]. rewrite !in_app_iff. left. apply in_map, in_seq0; auto.
      * intros j Hj. destruct (in_dec _ _ _) as [_|i]; [change (e (I "pi" j) / 1 = e (I "pi" j)); apply Rdiv_1|]. exfalso. apply i. cbn [chem_eq outs]. rewrite !in_app_iff. right; left. apply in_map, in_seq0; auto.
      * intros j Hj. destruct (in_dec _ _ _) as [i|_]; [exfalso; clear - i; apply ce_outs_inv in i as [(k & _ & Q)|[(k & _ & Q)|Q]]; discriminate Q|]. change (e (I "composition" j) / 1 = e (I "composition" j)). apply Rdiv_1.
    + cbn [group_sub srel]. exists (cea_w e).
      assert (GN : forall x, gname "props" [PG ""] x = x) by (intros x; unfold gname, pname; destruct x; reflexivity).
      split; [|split; intros x k Hx; unfold lin, lout, group_sub; cbn [sname pin pout sins souts]; rewrite unit_plain, GN, d1; reflexivity].
      split.
      * intros s [<-|[<-|[<-|[<-|[]]]]].
        -- intros o Ho. transitivity (compute (props_rhs g) e (fun _ => 0) o).
           ++ pose proof Ho as Ho'. apply rhs_outs_inv in Ho' as [(i & Hi & ->)|[(i & Hi & ->)|(i & j & Hi & Hj & ->)]].
              ** change (compute (props_rhs g) e (fun _ => 0) (I "rhs_T" i) / 1 = compute (props_rhs g) e (fun _ => 0) (I "rhs_T" i)). apply Rdiv_1.
              ** change (compute (props_rhs g) e (fun _ => 0) (I "rhs_P" i) / 1 = compute (props_rhs g) e (fun _ => 0) (I "rhs_P" i)). apply Rdiv_1.
              ** assert (Hj' : (j < ne1 g)%nat) by (unfold ne1; lia). destruct (divmod i j Hj') as [D1 D2]. cbn [vgetm].
                 change (compute (props_rhs g) e (fun _ => 0) (M "lhs_TP" ((i * ne1 g + j) / ne1 g) ((i * ne1 g + j) mod ne1 g)) / 1 = compute (props_rhs g) e (fun _ => 0) (M "lhs_TP" i j)). rewrite D1, D2. apply Rdiv_1.
           ++ apply rhs_ext; [exact Ho| | | |].
              ** change (e (V "T") = e (V "T") / 1). symmetry. apply Rdiv_1.
              ** change (e (V "n_moles") = e (V "n_moles") / 1). symmetry. apply Rdiv_1.
              ** intros j Hj. change (e (I "n" j) = e (I "n" j) / 1). symmetry. apply Rdiv_1.
              ** intros j Hj. change (e (I "composition" j) = e (I "composition" j) / 1). symmetry. apply Rdiv_1.
        -- intros i Hi. assert (Hi' : (i <= ne g)%nat) by (unfold ne1 in Hi; lia). destruct (H2 i Hi') as [Q _].
           change (nsum (ne1 g) (fun k => compute (props_rhs g) e (fun _ => 0) (M "lhs_TP" ((i * ne1 g + k) / ne1 g) ((i * ne1 g + k) mod ne1 g)) / 1 * (e (I "result_T" k) / 1)) = compute (props_rhs g) e (fun _ => 0) (I "rhs_T" i) / 1).
           rewrite Rdiv_1, <- Q. apply nsum_ext. intros k Hk. assert (Hk' : (k < ne1 g)%nat) by exact Hk. destruct (divmod i k Hk') as [D1 D2]. rewrite D1, D2, !Rdiv_1. reflexivity.
        -- intros i Hi. assert (Hi' : (i <= ne g)%nat) by (unfold ne1 in Hi; lia). destruct (H2 i Hi') as [_ Q].
           change (nsum (ne1 g) (fun k => compute (props_rhs g) e (fun _ => 0) (M "lhs_TP" ((i * ne1 g + k) / ne1 g) ((i * ne1 g + k) mod ne1 g)) / 1 * (e (I "result_P" k) / 1)) = compute (props_rhs g) e (fun _ => 0) (I "rhs_P" i) / 1).
           rewrite Rdiv_1, <- Q. apply nsum_ext. intros k Hk. assert (Hk' : (k < ne1 g)%nat) by exact Hk. destruct (divmod i k Hk') as [D1 D2]. rewrite D1, D2, !Rdiv_1. reflexivity.
        -- intros o Ho.
           assert (PO : exists x, o = V x /\ In x prop_names) by (apply calcs_outs_inv in Ho; repeat destruct Ho as [->|Ho]; try (subst o); eexists; (split; [reflexivity|cbn; tauto])).
           destruct PO as (x & -> & Hx). transitivity (prop_of g e x).
           ++ cbn in Hx. repeat destruct Hx as [<-|Hx]; try contradiction; match goal with |- vget (lout _ _) (V ?x) = _ =>
                change (prop_of g e x * ufac (unit_of (souts (tp2props_sub g)) x) / ufac (unit_of (souts (tp2props_sub g)) x) = prop_of g e x); field; apply ufac_n0 end.
           ++ apply (calcs_ext _ _ x Ho).
              ** change (e (V "T") = e (V "T") / 1). symmetry. apply Rdiv_1.
              ** change (e (V "P") = e (V "P") * ufac "bar" / ufac "bar"). field. apply ufac_n0.
              ** change (e (V "n_moles") = e (V "n_moles") / 1). symmetry. apply Rdiv_1.
              ** intros j Hj. change (e (I "n" j) = e (I "n" j) / 1). symmetry. apply Rdiv_1.
              ** intros j Hj. change (e (I "result_T" j) = e (I "result_T" j) / 1). symmetry. apply Rdiv_1.
              ** intros j Hj. change (e (I "result_P" j) = e (I "result_P" j) / 1). symmetry. apply Rdiv_1.
      * intros a b Hab k. cbn [thermo_calcs conns] in Hab. repeat destruct Hab as [Hab|Hab]; try contradiction; injection Hab as <- <-; reflexivity.
  - change (e (V "T") = T * ufac "degK"). rewrite ET, u_degK. ring.
  - change (e (V "P") * ufac "bar" = P * ufac "bar"). rewrite EP. reflexivity.
  - intros i Hi. change (e (I "composition" i) = c i). auto.
  - intros m Hm. cbn [tp2props_sub souts] in Hm. repeat destruct Hm as [<-|Hm]; try contradiction; cbn [fst snd]; rewrite Hp by (cbn; tauto); reflexivity.
Qed.
End G.
