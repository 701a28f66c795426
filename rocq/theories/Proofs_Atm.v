(* Lemmas about piecewise cubic interpolants and the checks of the atmosphere table. *)
From Coq Require Import ZArith QArith Qabs Qreals Lia Psatz.
From Verif Require Import Lib_R.
From Verif Require Export Model_Atm.
Open Scope string_scope. Open Scope list_scope. Open Scope R_scope.

Ltac rpos := match goal with |- 0 <= _ * _ => apply Rmult_le_pos; rpos | |- 0 <= _ ^ 2 => apply pow2_ge_0 | _ => lra end.
Fixpoint pairs {A} (l : list A) : list (A * A) :=
  match l with a :: r => match r with b :: _ => (a, b) :: pairs r | [] => [] end | [] => [] end.
Definition ascending (ks : list knot) : Prop := forall a b, In (a, b) (pairs ks) -> kx a < kx b.
Lemma pairs_map {A B} (f : A -> B) l : pairs (map f l) = map (fun p => (f (fst p), f (snd p))) (pairs l).
Proof. induction l as [|a [|b r] IH]; [reflexivity|reflexivity|]. cbn [map pairs] in *. f_equal. exact IH. Qed.
Lemma asc_tail a r : ascending (a :: r) -> ascending r.
Proof. intros H x y Hxy. apply H. destruct r as [|b r]; [destruct Hxy|right; exact Hxy]. Qed.
Lemma asc_head a b r : ascending (a :: b :: r) -> kx a < kx b.
Proof. intros H. apply H. left. reflexivity. Qed.
Lemma asc_first a r : ascending (a :: r) -> forall k, In k (a :: r) -> kx a <= kx k.
Proof.
  revert a. induction r as [|b r IH]; intros a H k [<-|Hk]; try lra; [destruct Hk|].
  pose proof (asc_head _ _ _ H). pose proof (IH b (asc_tail _ _ H) k Hk). lra.
Qed.

Lemma cub_zero c : cub c 0 = c0 c.
Proof. unfold cub. ring. Qed.
Lemma coeffs_end a b : kx a < kx b -> cub (coeffs a b) (kx b - kx a) = ky b.
Proof. intros H. unfold cub, coeffs. cbn. field. lra. Qed.
Lemma dcoeffs_end a b : kx a < kx b -> cub (dcub (coeffs a b)) (kx b - kx a) = km b.
Proof. intros H. unfold cub, dcub, coeffs. cbn. field. lra. Qed.
Lemma cub_derive c x0 x : derivable_pt_lim (fun t => cub c (t - x0)) x (cub (dcub c) (x - x0)).
Proof.
  apply is_derive_Reals. unfold cub, dcub. cbn [c3 c2 c1 c0]. auto_derive; [exact Logic.I|]. ring.
Qed.
Lemma glue p q x0 l : p x0 = q x0 -> derivable_pt_lim p x0 l -> derivable_pt_lim q x0 l ->
  derivable_pt_lim (fun t => if Rlt_dec t x0 then p t else q t) x0 l.
Proof.
  intros E Hp Hq eps He. destruct (Hp eps He) as [d1 H1]. destruct (Hq eps He) as [d2 H2].
  assert (Hd : 0 < Rmin d1 d2) by (apply Rmin_pos; apply cond_pos). exists (mkposreal _ Hd). intros h Hh Hlt. cbn in Hlt.
  destruct (Rlt_dec x0 x0) as [X|_]; [lra|]. destruct (Rlt_dec (x0 + h) x0) as [L|L].
  - rewrite <- E. apply H1; [exact Hh|]. pose proof (Rmin_l d1 d2). lra.
  - apply H2; [exact Hh|]. pose proof (Rmin_r d1 d2). lra.
Qed.
Lemma pp_first f a b r : kx a < kx b -> pp f (a :: b :: r) (kx a) = cub (f (coeffs a b)) 0.
Proof.
  intros H. cbn [pp]. replace (kx a - kx a) with 0 by ring. destruct r; [reflexivity|]. destruct (Rlt_dec (kx a) (kx b)); [reflexivity|lra].
Qed.
(* the pieces of f fit together (value and first derivative) at the knot x *)
Definition fits (f : cubic -> cubic) (ks : list knot) (x : R) : Prop :=
  forall a b c, In (a, b) (pairs ks) -> In (b, c) (pairs ks) -> kx b = x ->
  cub (f (coeffs a b)) (kx b - kx a) = cub (f (coeffs b c)) 0 /\ cub (dcub (f (coeffs a b))) (kx b - kx a) = cub (dcub (f (coeffs b c))) 0.
Lemma fits_tail f a r x : fits f (a :: r) x -> fits f r x.
Proof. intros H p q s H1 H2. apply H; (destruct r as [|? ?]; [|right; assumption]); destruct H1. Qed.
Lemma pp_derive f ks : ascending ks -> forall x, fits f ks x -> (2 <= List.length ks)%nat ->
  derivable_pt_lim (pp f ks) x (pp (fun c => dcub (f c)) ks x).
Proof.
  induction ks as [|a r IH]; intros Has x Hf Hl; [cbn in Hl; lia|].
  destruct r as [|b r]; [cbn in Hl; lia|]. destruct r as [|c r].
  - cbn [pp]. apply cub_derive.
  - specialize (IH (asc_tail _ _ Has) x (fits_tail _ _ _ _ Hf) ltac:(cbn; lia)).
    change (pp f (a :: b :: c :: r)) with (fun t => if Rlt_dec t (kx b) then cub (f (coeffs a b)) (t - kx a) else pp f (b :: c :: r) t).
    change (pp (fun c0 => dcub (f c0)) (a :: b :: c :: r) x) with
      (if Rlt_dec x (kx b) then cub (dcub (f (coeffs a b))) (x - kx a) else pp (fun c0 => dcub (f c0)) (b :: c :: r) x).
    destruct (Rlt_dec x (kx b)) as [L|L].
    + apply is_derive_Reals. apply (is_derive_ext_loc (fun t => cub (f (coeffs a b)) (t - kx a))).
      * assert (Hp : 0 < kx b - x) by lra. exists (mkposreal _ Hp). intros y Hy. unfold ball in Hy. cbn in Hy. unfold AbsRing_ball, abs, minus, plus, opp in Hy. cbn in Hy.
        destruct (Rlt_dec y (kx b)); [reflexivity|]. apply Rabs_def2 in Hy. lra.
      * apply is_derive_Reals. apply cub_derive.
    + destruct (Req_dec x (kx b)) as [->|N].
      * destruct (Hf a b c ltac:(left; reflexivity) ltac:(right; left; reflexivity) eq_refl) as [F1 F2].
        pose proof (asc_head _ _ _ (asc_tail _ _ Has)) as Hbc.
        apply (glue (fun t => cub (f (coeffs a b)) (t - kx a)) (pp f (b :: c :: r))).
        -- rewrite pp_first by exact Hbc. exact F1.
        -- rewrite pp_first by exact Hbc. rewrite <- F2. apply cub_derive.
        -- exact IH.
      * apply is_derive_Reals. apply (is_derive_ext_loc (pp f (b :: c :: r))).
        -- assert (Hp : 0 < x - kx b) by lra. exists (mkposreal _ Hp). intros y Hy. unfold ball in Hy. cbn in Hy. unfold AbsRing_ball, abs, minus, plus, opp in Hy. cbn in Hy.
           destruct (Rlt_dec y (kx b)); [|reflexivity]. apply Rabs_def2 in Hy. lra.
        -- apply is_derive_Reals. exact IH.
Qed.
Lemma interp_fits ks x : ascending ks -> fits (fun c => c) ks x.
Proof.
  intros Has a b c H1 H2 _. pose proof (Has _ _ H1). rewrite coeffs_end, dcoeffs_end by assumption. rewrite !cub_zero. cbn. auto.
Qed.
Lemma interp_node ks : ascending ks -> (2 <= List.length ks)%nat -> forall k, In k ks -> interp ks (kx k) = ky k.
Proof.
  unfold interp. induction ks as [|a r IH]; intros Has Hl k Hk; [destruct Hk|]. destruct r as [|b r]; [cbn in Hl; lia|].
  pose proof (asc_head _ _ _ Has) as Hab. destruct Hk as [<-|Hk].
  - rewrite pp_first by exact Hab. apply cub_zero.
  - destruct r as [|c r].
    + destruct Hk as [<-|[]]. cbn [pp]. apply coeffs_end. exact Hab.
    + change (pp (fun c0 => c0) (a :: b :: c :: r) (kx k)) with (if Rlt_dec (kx k) (kx b) then cub (coeffs a b) (kx k - kx a) else pp (fun c0 => c0) (b :: c :: r) (kx k)).
      pose proof (asc_first _ _ (asc_tail _ _ Has) k Hk). destruct (Rlt_dec (kx k) (kx b)); [lra|]. apply IH; [exact (asc_tail _ _ Has)|cbn; lia|exact Hk].
Qed.

(* ---- monotone pieces (Fritsch-Carlson) ---- *)
Definition falls (a b : knot) : Prop :=
  kx a < kx b /\ ky b < ky a /\ km a <= 0 /\ km b <= 0 /\
  3 * (ky b - ky a) <= km a * (kx b - kx a) /\ 3 * (ky b - ky a) <= km b * (kx b - kx a) /\
  (3 * (ky b - ky a) < km a * (kx b - kx a) \/ 3 * (ky b - ky a) < km b * (kx b - kx a)).
Lemma falls_slope a b u : falls a b -> 0 < u < kx b - kx a -> cub (dcub (coeffs a b)) u < 0.
Proof.
  intros [Hx [Hy [Ha [Hb [H1 [H2 H3]]]]]] [Hu1 Hu2].
  set (h := kx b - kx a) in *. assert (Hh : 0 < h) by (unfold h; lra). set (d := ky a - ky b) in *.
  set (al := - km a * h). set (be := - km b * h). set (s := u / h).
  assert (Hs : 0 < s < 1). { unfold s. split; [apply Rdiv_lt_0_compat; lra|]. apply (Rmult_lt_reg_r h); [exact Hh|]. unfold Rdiv. rewrite Rmult_assoc, Rinv_l by lra. lra. }
  assert (Hd : 0 < d) by (unfold d; lra).
  assert (Hal : 0 <= al <= 3 * d). { unfold al, d. split; [|lra]. replace (- km a * h) with ((- km a) * h) by ring. apply Rmult_le_pos; lra. }
  assert (Hbe : 0 <= be <= 3 * d). { unfold be, d. split; [|lra]. apply Rmult_le_pos; lra. }
  assert (E : cub (dcub (coeffs a b)) u * h = - (al * (1 - s) * (1 - 3 * s) + be * s * (3 * s - 2) + 6 * d * s * (1 - s))).
  { unfold cub, dcub, coeffs, al, be, s, d. cbn [c3 c2 c1 c0]. fold h. field. lra. }
  set (g := al * (1 - s) * (1 - 3 * s) + be * s * (3 * s - 2) + 6 * d * s * (1 - s)) in *.
  assert (G : 9 * d * g = (3 * d - al) * (3 * d - be) * (6 * (s * (1 - s))) + al * (3 * d - be) * (3 * (1 - s) ^ 2) + (3 * d - al) * be * (3 * s ^ 2) + al * be * (3 * (2 * s - 1) ^ 2)).
  { unfold g. ring. }
  assert (P1 : 0 <= (3 * d - al) * (3 * d - be) * (6 * (s * (1 - s)))) by rpos.
  assert (P2 : 0 <= al * (3 * d - be) * (3 * (1 - s) ^ 2)) by (rpos).
  assert (P3 : 0 <= (3 * d - al) * be * (3 * s ^ 2)) by (rpos).
  assert (P4 : 0 <= al * be * (3 * (2 * s - 1) ^ 2)) by (rpos).
  assert (Sq1 : 0 < (1 - s) ^ 2) by (apply pow_lt; lra). assert (Sq2 : 0 < s ^ 2) by (apply pow_lt; lra).
  assert (Hss : 0 < s * (1 - s)) by (apply Rmult_lt_0_compat; lra).
  assert (Hg : 0 < 9 * d * g).
  { rewrite G. destruct (Rlt_dec al (3 * d)) as [A|A]; destruct (Rlt_dec be (3 * d)) as [B|B].
    - assert (0 < (3 * d - al) * (3 * d - be) * (6 * (s * (1 - s)))); [|lra]. apply Rmult_lt_0_compat; [apply Rmult_lt_0_compat; lra|lra].
    - assert (0 < (3 * d - al) * be * (3 * s ^ 2)); [|lra]. apply Rmult_lt_0_compat; [apply Rmult_lt_0_compat; lra|lra].
    - assert (0 < al * (3 * d - be) * (3 * (1 - s) ^ 2)); [|lra]. apply Rmult_lt_0_compat; [apply Rmult_lt_0_compat; lra|lra].
    - exfalso. unfold al, be, d in A, B. lra. }
  assert (Hg' : 0 < g). { destruct (Rlt_dec 0 g) as [X|X]; [exact X|]. exfalso. assert (9 * d * g <= 0); [|lra]. assert (0 <= 9 * d * - g); [apply Rmult_le_pos; lra|lra]. }
  destruct (Rlt_dec (cub (dcub (coeffs a b)) u) 0) as [X|X]; [exact X|]. exfalso. assert (0 <= cub (dcub (coeffs a b)) u * h) by (apply Rmult_le_pos; lra). lra.
Qed.
Lemma falls_piece a b : falls a b -> forall x y, kx a <= x -> x < y -> y <= kx b -> cub (coeffs a b) (y - kx a) < cub (coeffs a b) (x - kx a).
Proof.
  intros F x y H1 H2 H3.
  destruct (MVT_cor2 (fun t => cub (coeffs a b) (t - kx a)) (fun t => cub (dcub (coeffs a b)) (t - kx a)) x y H2) as [c [Hc [Hc1 Hc2]]].
  { intros c _. apply cub_derive. }
  pose proof (falls_slope a b (c - kx a) F ltac:(lra)) as N.
  assert (cub (dcub (coeffs a b)) (c - kx a) * (y - x) < 0); [|lra].
  assert (0 < - cub (dcub (coeffs a b)) (c - kx a) * (y - x)) by (apply Rmult_lt_0_compat; lra). lra.
Qed.
Lemma interp_falls ks : ascending ks -> (2 <= List.length ks)%nat -> forall lo hi,
  (forall a b, In (a, b) (pairs ks) -> kx a < hi -> lo < kx b -> falls a b) ->
  forall first last, hd_error ks = Some first -> hd_error (rev ks) = Some last ->
  forall x y, lo <= x -> x < y -> y <= hi -> kx first <= x -> y <= kx last -> interp ks y < interp ks x.
Proof.
  unfold interp. induction ks as [|a r IH]; intros Has Hl lo hi Hf first last H1 H2 x y X1 X2 X3 X4 X5; [cbn in Hl; lia|].
  cbn in H1. inversion H1; subst first. clear H1. destruct r as [|b r]; [cbn in Hl; lia|].
  destruct r as [|c r].
  - cbn in H2. inversion H2; subst last. cbn [pp]. apply falls_piece; [apply Hf; [left; reflexivity|lra|lra]|lra..].
  - change (pp (fun c0 => c0) (a :: b :: c :: r)) with (fun t => if Rlt_dec t (kx b) then cub (coeffs a b) (t - kx a) else pp (fun c0 => c0) (b :: c :: r) t). cbn beta.
    assert (Hlast : hd_error (rev (b :: c :: r)) = Some last).
    { cbn [rev] in H2 |- *. destruct ((rev r ++ [c]) ++ [b]) as [|z zs] eqn:Ez; [apply app_eq_nil in Ez as [_ Ez]; discriminate|]. exact H2. }
    assert (IH' : forall x y, lo <= x -> x < y -> y <= hi -> kx b <= x -> y <= kx last -> pp (fun c0 => c0) (b :: c :: r) y < pp (fun c0 => c0) (b :: c :: r) x).
    { intros x' y'. apply (IH (asc_tail _ _ Has) ltac:(cbn; lia) lo hi); [intros p q Hpq; apply Hf; right; exact Hpq|reflexivity|exact Hlast]. }
    destruct (Rlt_dec y (kx b)) as [Ly|Ly]; destruct (Rlt_dec x (kx b)) as [Lx|Lx]; try lra.
    + apply falls_piece; [apply Hf; [left; reflexivity|lra|lra]|lra..].
    + assert (Hp : cub (coeffs a b) (kx b - kx a) < cub (coeffs a b) (x - kx a)). { apply falls_piece; [apply Hf; [left; reflexivity|lra|lra]|lra..]. }
      pose proof (asc_head _ _ _ Has) as Hab. rewrite coeffs_end in Hp by exact Hab.
      pose proof (pp_first (fun c0 => c0) b c r (asc_head _ _ _ (asc_tail _ _ Has))) as Hb. rewrite cub_zero in Hb. change (c0 (coeffs b c)) with (ky b) in Hb.
      destruct (Req_dec y (kx b)) as [->|N]; [rewrite Hb; lra|]. pose proof (IH' (kx b) y ltac:(lra) ltac:(lra) X3 ltac:(lra) X5). rewrite Hb in H. lra.
    + apply IH'; lra.
Qed.

(* ---- bounds: a piece lies above any number below its four control points ---- *)
Definition above (m : R) (a b : knot) : Prop :=
  kx a < kx b /\ m < ky a /\ m < ky b /\ m < ky a + km a * (kx b - kx a) / 3 /\ m < ky b - km b * (kx b - kx a) / 3.
Lemma above_piece m a b u : above m a b -> 0 <= u <= kx b - kx a -> m < cub (coeffs a b) u.
Proof.
  intros [Hx [H1 [H2 [H3 H4]]]] Hu. set (h := kx b - kx a) in *. assert (Hh : 0 < h) by (unfold h; lra). set (s := u / h).
  assert (Hs : 0 <= s <= 1). { unfold s. split; [apply Rmult_le_pos; [lra|left; apply Rinv_0_lt_compat; exact Hh]|]. apply (Rmult_le_reg_r h); [exact Hh|]. unfold Rdiv. rewrite Rmult_assoc, Rinv_l by lra. lra. }
  set (A := ky a + km a * h / 3) in *. set (B := ky b - km b * h / 3) in *.
  assert (E : cub (coeffs a b) u - m = (ky a - m) * (1 - s) ^ 3 + 3 * ((A - m) * (s * (1 - s) ^ 2)) + 3 * ((B - m) * (s ^ 2 * (1 - s))) + (ky b - m) * s ^ 3).
  { unfold cub, coeffs, A, B, s. cbn [c3 c2 c1 c0]. fold h. field. lra. }
  assert (N1 : 0 <= (A - m) * (s * (1 - s) ^ 2)) by (rpos).
  assert (N2 : 0 <= (B - m) * (s ^ 2 * (1 - s))) by (rpos).
  assert (N3 : 0 <= (1 - s) ^ 3) by (apply pow_le; lra). assert (N4 : 0 <= s ^ 3) by (apply pow_le; lra).
  assert (N5 : 0 <= (ky a - m) * (1 - s) ^ 3) by (apply Rmult_le_pos; lra). assert (N6 : 0 <= (ky b - m) * s ^ 3) by (apply Rmult_le_pos; lra).
  destruct (Req_dec s 0) as [Z|Z].
  - assert (0 < (ky a - m) * (1 - s) ^ 3); [|lra]. rewrite Z. replace ((1 - 0) ^ 3) with 1 by ring. lra.
  - assert (0 < (ky b - m) * s ^ 3); [|lra]. apply Rmult_lt_0_compat; [lra|]. apply pow_lt. lra.
Qed.
Lemma interp_above m ks : ascending ks -> (2 <= List.length ks)%nat -> (forall a b, In (a, b) (pairs ks) -> above m a b) ->
  forall first last, hd_error ks = Some first -> hd_error (rev ks) = Some last ->
  forall x, kx first <= x <= kx last -> m < interp ks x.
Proof.
  unfold interp. induction ks as [|a r IH]; intros Has Hl Hf first last H1 H2 x [X1 X2]; [cbn in Hl; lia|].
  cbn in H1. inversion H1; subst first. clear H1. destruct r as [|b r]; [cbn in Hl; lia|].
  destruct r as [|c r].
  - cbn in H2. inversion H2; subst last. cbn [pp]. apply above_piece; [apply Hf; left; reflexivity|lra].
  - change (pp (fun c0 => c0) (a :: b :: c :: r) x) with (if Rlt_dec x (kx b) then cub (coeffs a b) (x - kx a) else pp (fun c0 => c0) (b :: c :: r) x).
    assert (Hlast : hd_error (rev (b :: c :: r)) = Some last).
    { cbn [rev] in H2 |- *. destruct ((rev r ++ [c]) ++ [b]) as [|z zs] eqn:Ez; [apply app_eq_nil in Ez as [_ Ez]; discriminate|]. exact H2. }
    destruct (Rlt_dec x (kx b)) as [L|L].
    + apply above_piece; [apply Hf; left; reflexivity|lra].
    + apply (IH (asc_tail _ _ Has) ltac:(cbn; lia) ltac:(intros p q Hpq; apply Hf; right; exact Hpq) b last eq_refl Hlast). lra.
Qed.

(* ---- which piece is used ---- *)
Lemma pp_piece f ks : ascending ks -> forall l a b c r, ks = l ++ a :: b :: c :: r -> forall x, kx a <= x < kx b -> pp f ks x = cub (f (coeffs a b)) (x - kx a).
Proof.
  intros Has l. revert ks Has. induction l as [|k l IH]; intros ks Has a b c r -> x Hx.
  - cbn. destruct (Rlt_dec x (kx b)); [reflexivity|lra].
  - cbn [app] in *. destruct l as [|k' l].
    + cbn [app] in *. change (pp f (k :: a :: b :: c :: r) x) with (if Rlt_dec x (kx a) then cub (f (coeffs k a)) (x - kx k) else pp f (a :: b :: c :: r) x).
      destruct (Rlt_dec x (kx a)); [lra|]. exact (IH _ (asc_tail _ _ Has) a b c r eq_refl x Hx).
    + cbn [app] in *. assert (Hk : kx k' <= kx a). { apply (asc_first k' (l ++ a :: b :: c :: r)); [exact (asc_tail _ _ Has)|]. right. apply in_or_app. right. left. reflexivity. }
      specialize (IH _ (asc_tail _ _ Has) a b c r eq_refl x Hx).
      destruct (l ++ a :: b :: c :: r) as [|z zs] eqn:Ez; [destruct l; discriminate|].
      change (pp f (k :: k' :: z :: zs) x) with (if Rlt_dec x (kx k') then cub (f (coeffs k k')) (x - kx k) else pp f (k' :: z :: zs) x).
      destruct (Rlt_dec x (kx k')); [lra|]. exact IH.
Qed.
Lemma pp_piece_last f ks : ascending ks -> forall l a b r, ks = l ++ a :: b :: r -> forall x, kx a <= x < kx b -> pp f ks x = cub (f (coeffs a b)) (x - kx a).
Proof.
  intros Has l a b [|c r] E x Hx; [|exact (pp_piece f ks Has l a b c r E x Hx)]. revert ks Has E. induction l as [|k l IH]; intros ks Has ->; [reflexivity|].
  cbn [app] in *. destruct l as [|k' l].
  - cbn [app] in *. change (pp f [k; a; b] x) with (if Rlt_dec x (kx a) then cub (f (coeffs k a)) (x - kx k) else pp f [a; b] x). destruct (Rlt_dec x (kx a)); [lra|reflexivity].
  - cbn [app] in *. assert (Hk : kx k' <= kx a). { apply (asc_first k' (l ++ [a; b])); [exact (asc_tail _ _ Has)|]. right. apply in_or_app. right. left. reflexivity. }
    specialize (IH _ (asc_tail _ _ Has) eq_refl). destruct (l ++ [a; b]) as [|z zs] eqn:Ez; [destruct l; discriminate|].
    change (pp f (k :: k' :: z :: zs) x) with (if Rlt_dec x (kx k') then cub (f (coeffs k k')) (x - kx k) else pp f (k' :: z :: zs) x). destruct (Rlt_dec x (kx k')); [lra|exact IH].
Qed.
(* a function that follows two different straight derivatives on the two sides of a point has no derivative there *)
Lemma kink f p q x0 d l1 l2 : 0 < d -> f x0 = p x0 -> f x0 = q x0 -> (forall t, x0 - d < t < x0 -> f t = p t) -> (forall t, x0 < t < x0 + d -> f t = q t) ->
  derivable_pt_lim p x0 l1 -> derivable_pt_lim q x0 l2 -> l1 <> l2 -> forall l, ~ derivable_pt_lim f x0 l.
Proof.
  intros Hd E1 E2 L Rr Hp Hq N l H.
  assert (U : forall g l', (forall eps, 0 < eps -> exists h, h <> 0 /\ Rabs ((g (x0 + h) - g x0) / h - l') < eps /\ Rabs ((g (x0 + h) - g x0) / h - l) < eps) -> l = l').
  { intros g l' Hg. destruct (Req_dec l l') as [->|Hn]; [reflexivity|]. exfalso.
    assert (He : 0 < Rabs (l - l') / 2). { apply Rabs_pos_lt in Hn || idtac. assert (l - l' <> 0) by lra. pose proof (Rabs_pos_lt _ H0). lra. }
    destruct (Hg _ He) as [h [_ [A B]]]. set (z := (g (x0 + h) - g x0) / h) in *. apply Rabs_def2 in A. apply Rabs_def2 in B.
    unfold Rabs in *. destruct (Rcase_abs (l - l')); lra. }
  apply N. transitivity l; [symmetry|].
  - apply (U p). intros eps He. destruct (H eps He) as [d1 H1]. destruct (Hp eps He) as [d2 H2].
    set (h := Rmin (Rmin d1 d2) d / 2). assert (Hh : 0 < h /\ h < d1 /\ h < d2 /\ h < d).
    { unfold h. pose proof (cond_pos d1). pose proof (cond_pos d2). pose proof (Rmin_l (Rmin d1 d2) d). pose proof (Rmin_r (Rmin d1 d2) d).
      pose proof (Rmin_l d1 d2). pose proof (Rmin_r d1 d2). assert (0 < Rmin (Rmin d1 d2) d) by (repeat apply Rmin_pos; auto). lra. }
    exists (- h). assert (- h <> 0) by lra. split; [assumption|].
    specialize (H1 (- h) H0 ltac:(rewrite Rabs_Ropp, Rabs_right; lra)). specialize (H2 (- h) H0 ltac:(rewrite Rabs_Ropp, Rabs_right; lra)).
    split; [exact H2|]. rewrite (L (x0 + - h)) in H1 by lra. rewrite E1 in H1. exact H1.
  - apply (U q). intros eps He. destruct (H eps He) as [d1 H1]. destruct (Hq eps He) as [d2 H2].
    set (h := Rmin (Rmin d1 d2) d / 2). assert (Hh : 0 < h /\ h < d1 /\ h < d2 /\ h < d).
    { unfold h. pose proof (cond_pos d1). pose proof (cond_pos d2). pose proof (Rmin_l (Rmin d1 d2) d). pose proof (Rmin_r (Rmin d1 d2) d).
      pose proof (Rmin_l d1 d2). pose proof (Rmin_r d1 d2). assert (0 < Rmin (Rmin d1 d2) d) by (repeat apply Rmin_pos; auto). lra. }
    exists h. assert (h <> 0) by lra. split; [assumption|].
    specialize (H1 h H0 ltac:(rewrite Rabs_right; lra)). specialize (H2 h H0 ltac:(rewrite Rabs_right; lra)).
    split; [exact H2|]. rewrite (Rr (x0 + h)) in H1 by lra. rewrite E2 in H1. exact H1.
Qed.
