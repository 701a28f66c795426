(* Model of pycycle/thermo/cea/chem_eq.py (ChemEq), props_rhs.py (PropsRHS) and props_calcs.py (PropsCalcs).
   LinearSystemComp (OpenMDAO) is not modelled: statements about its solution assume A x = b. Real numbers stand for floats. *)
From Verif Require Export Spec_Comp Model_Species.
Open Scope string_scope. Open Scope list_scope. Open Scope R_scope.

(* what the components use of the thermo object (species_data.py Properties): sizes, stoichiometry, and for every species the
   non-dimensional enthalpy, entropy, heat capacity and their temperature derivatives (H0, S0, Cp0, and *_applyJ(T, 1)) *)
Record gas := mkGas { np : nat; ne : nat; aij : nat -> nat -> R;
  H0 : nat -> R -> R; S0 : nat -> R -> R; Cp0 : nat -> R -> R; dH0 : nat -> R -> R; dS0 : nat -> R -> R; dCp0 : nat -> R -> R }.
(* the gas of a Properties object after any history of calls *)
Definition gas_of (p : props) (hist : list (query * R)) : gas :=
  let f q j T := nth j (fst (call (p_species p) q T (calls (p_species p) hist (cache_init (p_species p))))) 0 in
  mkGas (List.length (p_products p)) (List.length (p_elements p)) (fun i j => nth j (nth i (p_aij p) []) 0)
    (f QH0) (f QS0) (f QCp0) (f (QH0_J 1)) (f (QS0_J 1)) (f (QCp0_J 1)).
(* constants.py:58-68 *)
Definition R_SI : R := 83144598 / 10000.
Definition R_ENG : R := 19872035 / 10000000.
Definition P_REF : R := 101325 / 100000.
Definition MIN_CONC : R := / 10 ^ 10.
(* np.sum over an axis of length n *)
Definition nsum (n : nat) (f : nat -> R) : R := lsum f (seq 0 n).
Definition sel_eq (i j : nat) : R := if Nat.eqb i j then 1 else 0.

(* ---- PropsRHS ---- *)
Section RHS.
Variable g : gas.
(* species_data.py:83-87 *)
Definition aij_prod (i j k : nat) : R := aij g i k * aij g j k.
(* props_rhs.py:75-105 compute *)
Definition rhs_compute (e old : env) : env := fun v =>
  let n := fun k => e (I "n" k) in let T := e (V "T") in let b0 := fun k => e (I "composition" k) in
  match v with
  | M s i j =>
      if String.eqb s "lhs_TP" then
        if Nat.ltb i (ne g) && Nat.ltb j (ne g) then nsum (np g) (fun k => aij_prod i j k * n k)
        else if Nat.eqb i (ne g) && Nat.ltb j (ne g) then b0 j
        else if Nat.ltb i (ne g) && Nat.eqb j (ne g) then b0 i
        else if Nat.eqb i (ne g) && Nat.eqb j (ne g) then 0 else old v
      else old v
  | I s i =>
      if String.eqb s "rhs_P" then if Nat.ltb i (ne g) then b0 i else if Nat.eqb i (ne g) then e (V "n_moles") else old v
      else if String.eqb s "rhs_T" then
        if Nat.ltb i (ne g) then nsum (np g) (fun k => aij g i k * (n k * H0 g k T))
        else if Nat.eqb i (ne g) then nsum (np g) (fun k => n k * H0 g k T) else old v
      else old v
  | _ => old v
  end.
(* props_rhs.py:107-137 compute_partials; h0 is self.H0_T, stored by the last compute *)
Definition rhs_partials_self (h0 : nat -> R) (e : env) (J : jac) : jac := fun o v =>
  let n := fun k => e (I "n" k) in let T := e (V "T") in
  match o with
  | I s i =>
      if String.eqb s "rhs_T" && Nat.leb i (ne g) then
        match v with
        | V t => if String.eqb t "T" then
              if Nat.ltb i (ne g) then nsum (np g) (fun k => aij g i k * (n k * dH0 g k T)) else nsum (np g) (fun k => n k * dH0 g k T)
            else J o v
        | I t k => if String.eqb t "n" && Nat.ltb k (np g) then (if Nat.ltb i (ne g) then aij g i k * h0 k else h0 k) else J o v
        | _ => J o v
        end
      else J o v
  | _ => J o v
  end.
(* tables filled by loops: entries (row, column, value) written in order over zeros *)
Definition table := list (nat * nat * R).
Definition tlook (t : table) (r c : nat) : R :=
  fold_left (fun acc rcv => let '(r', c', v) := rcv in if Nat.eqb r' r && Nat.eqb c' c then v else acc) t 0.
(* props_rhs.py:52-63 dlhs_dn, rows are the flattened entries ne1*i+j of lhs_TP *)
Definition dlhs_dn : table :=
  flat_map (fun i => flat_map (fun j => map (fun k => ((S (ne g) * i + j)%nat, k, aij_prod i j k)) (seq 0 (np g))) (seq 0 (ne g))) (seq 0 (ne g)).
(* props_rhs.py:65-70 dlhs_db0 *)
Definition dlhs_db0 : table :=
  flat_map (fun _ : nat => flat_map (fun j => [((S (ne g) * ne g + j)%nat, j, 1); ((S (ne g) * j + ne g)%nat, j, 1)]) (seq 0 (ne g))) (seq 0 (ne g)).
(* props_rhs.py:20-73 setup *)
Definition lhs_vars : list var := flat_map (fun i => map (M "lhs_TP" i) (seq 0 (S (ne g)))) (seq 0 (S (ne g))).
Definition rhs_decls : list decl :=
  map (fun i => ([I "rhs_P" i], [V "n_moles"], if Nat.eqb i (ne g) then 1 else 0)) (seq 0 (S (ne g))) ++
  flat_map (fun i => map (fun j => ([I "rhs_P" i], [I "composition" j], sel_eq i j)) (seq 0 (ne g))) (seq 0 (S (ne g))) ++
  flat_map (fun i => flat_map (fun j => map (fun k => ([M "lhs_TP" i j], [I "n" k], tlook dlhs_dn (S (ne g) * i + j) k)) (seq 0 (np g))) (seq 0 (S (ne g)))) (seq 0 (S (ne g))) ++
  flat_map (fun i => flat_map (fun j => map (fun k => ([M "lhs_TP" i j], [I "composition" k], tlook dlhs_db0 (S (ne g) * i + j) k)) (seq 0 (ne g))) (seq 0 (S (ne g)))) (seq 0 (S (ne g))) ++
  [(map (I "rhs_T") (seq 0 (S (ne g))), [V "T"], 0); (map (I "rhs_T") (seq 0 (S (ne g))), map (I "n") (seq 0 (np g)), 0)].
(* linearised, as OpenMDAO does, at the point compute was last run at *)
Definition props_rhs : comp :=
  mkComp ([V "T"; V "n_moles"] ++ map (I "n") (seq 0 (np g)) ++ map (I "composition") (seq 0 (ne g)))
    (map (I "rhs_T") (seq 0 (S (ne g))) ++ map (I "rhs_P") (seq 0 (S (ne g))) ++ lhs_vars)
    rhs_compute rhs_decls (fun e J => rhs_partials_self (fun k => H0 g k (e (V "T"))) e J).
End RHS.

(* ---- PropsCalcs ---- *)
Section CALCS.
Variable g : gas.
(* props_calcs.py:61-83 *)
Definition dlnVqdlnP (e : env) : R := -1 + e (I "result_P" (ne g)).
Definition dlnVqdlnT (e : env) : R := 1 - e (I "result_T" (ne g)).
Definition nj (e : env) (j : nat) : R := e (I "n" j).
Definition h0 (e : env) (j : nat) : R := H0 g j (e (V "T")).
Definition nj_H0 (e : env) (j : nat) : R := nj e j * h0 e j.
Definition Cpf (e : env) : R := nsum (np g) (fun j => nj e j * Cp0 g j (e (V "T"))).
Definition Cpe (e : env) : R :=
  - nsum (ne g) (fun i => nsum (np g) (fun j => aij g i j * nj_H0 e j) * e (I "result_T" i))
  + nsum (np g) (fun j => nj_H0 e j * h0 e j)
  - nsum (np g) (nj_H0 e) * e (I "result_T" (ne g)).
Definition pc_Cp (e : env) : R := (Cpe e + Cpf e) * R_ENG.
Definition pc_Cv (e : env) : R := pc_Cp e + e (V "n_moles") * R_ENG * dlnVqdlnT e ^ 2 / dlnVqdlnP e.
(* props_calcs.py:54-107 compute (the FloatingPointError fallback of S, P <= 0, is not modelled) *)
Definition calcs_compute (e old : env) : env :=
  let T := e (V "T") in let P := e (V "P") in let nm := e (V "n_moles") in
  let o := upd old (V "h") (nsum (np g) (nj_H0 e) * R_ENG * T) in
  let o := upd o (V "S") (R_ENG * nsum (np g) (fun j => nj e j * (S0 g j T + ln (nm / nj e j / (P / P_REF))))) in
  let o := upd o (V "Cp") (pc_Cp e) in
  let o := upd o (V "Cv") (pc_Cv e) in
  let o := upd o (V "gamma") (-1 * pc_Cp e / pc_Cv e / dlnVqdlnP e) in
  let o := upd o (V "rho") (P / (nm * R_SI * T) * 100) in
  upd o (V "R") (R_SI * nm).
(* props_calcs.py:109-209 compute_partials. Each branch is one J[of, wrt] = ... assignment; assignments to one entry after
   another (trace zeroing, the -= of Cv/result_T) are merged *)
Definition dCp_dnj (e : env) (j : nat) : R :=
  R_ENG * (Cp0 g j (e (V "T")) + h0 e j ^ 2) - nsum (ne g) (fun i => R_ENG * aij g i j * h0 e j * e (I "result_T" i))
  - R_ENG * h0 e j * e (I "result_T" (ne g)).
Definition dCp_drT (e : env) (i : nat) : R :=
  if Nat.ltb i (ne g) then - R_ENG * nsum (np g) (fun j => aij g i j * nj_H0 e j) else - R_ENG * nsum (np g) (nj_H0 e).
Definition dCp_dT (e : env) : R :=
  let T := e (V "T") in
  (2 * nsum (np g) (fun j => nj e j * h0 e j * dH0 g j T)
   - nsum (ne g) (fun i => nsum (np g) (fun j => aij g i j * nj e j * dH0 g j T) * e (I "result_T" i))
   - nsum (np g) (fun j => nj e j * dH0 g j T) * e (I "result_T" (ne g))
   + nsum (np g) (fun j => nj e j * dCp0 g j T)) * R_ENG.
Definition dCv_dnm (e : env) : R := R_ENG * dlnVqdlnT e ^ 2 / dlnVqdlnP e.
Definition dCv_drP_last (e : env) : R := - R_ENG * e (V "n_moles") * (dlnVqdlnT e / dlnVqdlnP e) ^ 2.
Definition dCv_drT_last (e : env) : R := dCp_drT e (ne g) - e (V "n_moles") * R_ENG / dlnVqdlnP e * (2 * dlnVqdlnT e).
Definition calcs_partials (e : env) (J : jac) : jac := fun o v =>
  let T := e (V "T") in let P := e (V "P") in let nm := e (V "n_moles") in let Cp := pc_Cp e in let Cv := pc_Cv e in
  let vp := dlnVqdlnP e in
  let out s := match o with V t => String.eqb t s | _ => false end in
  let inp s := match v with V t => String.eqb t s | _ => false end in
  let inv s n := match v with I t k => if String.eqb t s && Nat.ltb k n then Some k else None | _ => None end in
  if out "h" then
    if inp "T" then R_ENG * (nsum (np g) (fun j => nj e j * dH0 g j T) * T + nsum (np g) (fun j => nj e j * h0 e j)) else
    match inv "n" (np g) with Some j => R_ENG * T * h0 e j | None => J o v end
  else if out "S" then
    match inv "n" (np g) with
    | Some j => if Rle_dec (nj e j) (MIN_CONC + / 10 ^ 20) then 0 else R_ENG * (S0 g j T + ln nm - ln (P / P_REF) - ln (nj e j) - 1)
    | None => if inp "T" then R_ENG * nsum (np g) (fun j => nj e j * dS0 g j T)
        else if inp "P" then - R_ENG * nsum (np g) (fun j => nj e j / P)
        else if inp "n_moles" then R_ENG * nsum (np g) (nj e) / nm else J o v end
  else if out "rho" then
    if inp "T" then - P / (nm * R_SI * T ^ 2) * 100 else
    if inp "n_moles" then - P / (nm ^ 2 * R_SI * T) * 100 else
    if inp "P" then 1 / (nm * R_SI * T) * 100 else J o v
  else if out "Cp" then
    match inv "n" (np g) with Some j => dCp_dnj e j | None =>
    match inv "result_T" (S (ne g)) with Some i => dCp_drT e i | None => if inp "T" then dCp_dT e else J o v end end
  else if out "Cv" then
    match inv "n" (np g) with Some j => dCp_dnj e j | None =>
    match inv "result_T" (S (ne g)) with Some i => if Nat.eqb i (ne g) then dCv_drT_last e else dCp_drT e i | None =>
    match inv "result_P" (S (ne g)) with Some i => if Nat.eqb i (ne g) then dCv_drP_last e else 0 | None =>
    if inp "n_moles" then dCv_dnm e else if inp "T" then dCp_dT e else J o v end end end
  else if out "gamma" then
    match inv "n" (np g) with Some j => dCp_dnj e j * (Cp / Cv - 1) / (vp * Cv) | None =>
    match inv "result_T" (S (ne g)) with
    | Some i => if Nat.eqb i (ne g) then (- dCp_drT e (ne g) / Cv + Cp / Cv ^ 2 * dCv_drT_last e) / vp
                else 1 / Cv / vp * dCp_drT e i * (Cp / Cv - 1)
    | None =>
    match inv "result_P" (S (ne g)) with Some i => if Nat.eqb i (ne g) then Cp / Cv / vp * (dCv_drP_last e / Cv + 1 / vp) else 0 | None =>
    if inp "n_moles" then Cp / vp / Cv ^ 2 * dCv_dnm e else if inp "T" then dCp_dT e / vp / Cv * (Cp / Cv - 1) else J o v end end end
  else J o v.
(* props_calcs.py:15-51 setup *)
Definition v_n : list var := map (I "n") (seq 0 (np g)).
Definition v_rT : list var := map (I "result_T") (seq 0 (S (ne g))).
Definition v_rP : list var := map (I "result_P") (seq 0 (S (ne g))).
Definition props_calcs : comp :=
  mkComp ([V "T"; V "P"] ++ v_n ++ [V "n_moles"] ++ v_rT ++ v_rP) [V "h"; V "S"; V "gamma"; V "Cp"; V "Cv"; V "rho"; V "R"] calcs_compute
    [([V "h"], v_n ++ [V "T"], 0); ([V "S"], v_n ++ [V "T"; V "P"], 0); ([V "S"], [V "n_moles"], 0); ([V "Cp"], v_n ++ [V "T"] ++ v_rT, 0);
     ([V "rho"], [V "T"; V "P"; V "n_moles"], 0); ([V "gamma"], v_n ++ [V "n_moles"; V "T"] ++ v_rT ++ v_rP, 0);
     ([V "Cv"], v_n ++ [V "n_moles"; V "T"] ++ v_rT ++ v_rP, 0); ([V "R"], [V "n_moles"], R_SI)] calcs_partials.
End CALCS.

(* ---- ChemEq ---- *)
Section EQ.
Variable g : gas.
(* chem_eq.py:42-47 *)
Definition weight (x : R) : R := (1 / (1 + exp (- 10 ^ 5 * x)) - / 2) * 2.
Definition ntot (e : env) : R := nsum (np g) (fun j => e (I "n" j)).
(* chem_eq.py:157-169: the pressure falls back to 1e-5 when its logarithm does not exist; for n <= 0 python raises (outside of
   every statement's domain) *)
Definition ce_P (e : env) : R := let P := e (V "P") / P_REF in if Rlt_dec 0 P then P else / 10 ^ 5.
Definition mu (e : env) (j : nat) : R := H0 g j (e (V "T")) - S0 g j (e (V "T")) + ln (e (I "n" j)) + ln (ce_P e) - ln (ntot e).
Definition pi_a (e : env) (j : nat) : R := nsum (ne g) (fun i => e (I "pi" i) * aij g i j).
Definition ce_weight (e : env) (j : nat) : R := weight (e (I "n" j) * ntot e).
(* chem_eq.py:182 *)
Definition is_trace (e : env) (j : nat) : bool := if Rle_dec (e (I "n" j)) (MIN_CONC + / 10 ^ 20) then true else false.
(* chem_eq.py:132-196 apply_nonlinear; remove is self.remove_trace_species at entry *)
Definition ce_resid_n (remove : bool) (e : env) (j : nat) : R :=
  if remove && is_trace e j then 0 else (mu e j - pi_a e j) * ce_weight e j.
Definition ce_resid (remove : bool) (e old : env) : env := fun v =>
  match v with
  | I s k => if String.eqb s "n" && Nat.ltb k (np g) then ce_resid_n remove e k
             else if String.eqb s "pi" && Nat.ltb k (ne g) then nsum (np g) (fun j => aij g k j * e (I "n" j)) - e (I "composition" k)
             else old v
  | V s => if String.eqb s "n_moles" then ntot e - e (V "n_moles") else old v
  | _ => old v
  end.
(* chem_eq.py:198-317 linearize and _calc_dRdy; w = self.weights and mask = self._trace, as left by apply_nonlinear *)
Definition ce_jac (remove : bool) (w : nat -> R) (mask : nat -> bool) (e : env) (J : jac) : jac := fun o v =>
  let n := fun j => e (I "n" j) in let N := ntot e in let MW := 1 / N in
  let tiny_n j := if Rle_dec (n j) MIN_CONC then true else false in
  match o with
  | I so j =>
      if String.eqb so "n" && Nat.ltb j (np g) then
        match v with
        | I s k =>
            if String.eqb s "n" && Nat.ltb k (np g) then
              if remove && mask j then (if Nat.eqb j k then 1 else 0)
              else if remove && mask k then 0
              else if remove && tiny_n j then (if Nat.eqb j k then -1 else 0)
              else (if Nat.eqb j k then 1 / n j - MW else - MW) * w j
            else if String.eqb s "pi" && Nat.ltb k (ne g) then
              if remove && (mask j || tiny_n j) then 0 else - aij g k j * w j
            else J o v
        | V s =>
            if String.eqb s "P" then if remove && mask j then 0 else w j * (1 / P_REF / (e (V "P") / P_REF))
            else if String.eqb s "T" then if remove && mask j then 0 else (dH0 g j (e (V "T")) - dS0 g j (e (V "T"))) * w j
            else J o v
        | _ => J o v
        end
      else if String.eqb so "pi" && Nat.ltb j (ne g) then
        match v with
        | I s k => if String.eqb s "n" && Nat.ltb k (np g) then aij g j k
                   else if String.eqb s "composition" && Nat.ltb k (ne g) then - sel_eq j k else J o v
        | _ => J o v
        end
      else J o v
  | V so => if String.eqb so "n_moles" then
      match v with I s k => if String.eqb s "n" && Nat.ltb k (np g) then 1 else J o v | _ => J o v end else J o v
  | _ => J o v
  end.
Definition eq_n : list var := map (I "n") (seq 0 (np g)).
Definition eq_pi : list var := map (I "pi") (seq 0 (ne g)).
Definition eq_b : list var := map (I "composition") (seq 0 (ne g)).
(* chem_eq.py:60-130 setup. As a component: linearised where it was evaluated, with the same trace switch *)
Definition chem_eq (remove : bool) : comp :=
  mkComp (eq_b ++ [V "P"; V "T"] ++ eq_n ++ eq_pi ++ [V "n_moles"]) (eq_n ++ eq_pi ++ [V "n_moles"]) (ce_resid remove)
    [(eq_n, eq_n ++ eq_pi ++ [V "P"; V "T"], 0); (eq_pi, eq_n ++ eq_b, 0); ([V "n_moles"], eq_n, 0); ([V "n_moles"], [V "n_moles"], -1)]
    (fun e J => ce_jac remove (ce_weight e) (is_trace e) e J).
(* the instance state: self.remove_trace_species, self._trace and self.weights (None: attribute not set yet) *)
Record ce_state := mkCe { ce_remove : bool; ce_trace : option (nat -> bool); ce_w : option (nat -> R) }.
Definition ce_init : ce_state := mkCe false None None.
Definition ce_norm (e : env) (remove : bool) : R := sqrt (nsum (np g) (fun j => ce_resid_n remove e j ^ 2)).
Definition ce_apply (s : ce_state) (e old : env) : env * ce_state :=
  (ce_resid (ce_remove s) e old,
   mkCe (if Rlt_dec (ce_norm e (ce_remove s)) (/ 10 ^ 4) then true else false)
     (if ce_remove s then Some (is_trace e) else ce_trace s) (Some (ce_weight e))).
(* None: AttributeError *)
Definition ce_linearize (s : ce_state) (e : env) (J : jac) : option jac :=
  match ce_w s with
  | None => None
  | Some w => if ce_remove s then match ce_trace s with None => None | Some m => Some (ce_jac true w m e J) end
              else Some (ce_jac false w (fun _ => false) e J)
  end.
Definition ce_applies (l : list env) (s : ce_state) : ce_state := fold_left (fun s e => snd (ce_apply s e (fun _ => 0))) l s.
(* chem_eq.py:52-55 guess_nonlinear, norm = resids.get_norm() *)
Definition n_init : R := 1 / INR (np g) / 10.
Definition ce_guess (norm : R) (n : nat -> R) : nat -> R :=
  if Rlt_dec (/ 10 ^ 2) norm then fun _ => n_init else if Req_EM_T norm 0 then fun _ => n_init
  else if existsb (fun j => if Rlt_dec (n j) 0 then true else false) (seq 0 (np g)) then fun _ => n_init else n.
End EQ.
