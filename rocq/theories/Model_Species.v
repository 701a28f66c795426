(* Model of pycycle/thermo/cea/species_data.py: Properties (construction, coefficient cache, property functions). *)
From Verif Require Export Spec_Py Spec_Comp.
Open Scope string_scope. Open Scope list_scope. Open Scope R_scope.

(* one entry of thermo_data_module.products, and the module itself (thermo_data/janaf.py) *)
Record species := mkSpecies { sp_coeffs : list (list R); sp_ranges : list R; sp_wt : R; sp_elems : dict R }.
Record spec_data := mkSpec { products : dict species; element_wts : dict R; reactants : dict (dict R) }.

(* python's sorted() on a list of strings *)
Fixpoint sinsert (x : string) (l : list string) : list string :=
  match l with [] => [x] | y :: r => if String.leb x y then x :: l else y :: sinsert x r end.
Definition sorted (l : list string) : list string := fold_right sinsert [] l.

Definition dgetd (d : dict R) (k : string) (v0 : R) : R := match dget d k with Some v => v | None => v0 end.

(* species_data.py:153-185 build_coeff_table *)
(* np.searchsorted(tr, Tt): first index whose entry is >= Tt (for an ascending tr) *)
Fixpoint searchsorted (tr : list R) (T : R) : nat :=
  match tr with [] => O | x :: r => if Rlt_dec x T then S (searchsorted r T) else O end.
(* lines 168-172 *)
Definition seg (tr : list R) (T : R) : nat :=
  let j := searchsorted tr T in
  if Nat.eqb j 0 then 1%nat else if Nat.eqb j (List.length tr) then (j - 1)%nat else j.
(* self.a[i][:len(data)] = data *)
Definition overwrite (row data : list R) : list R := data ++ skipn (List.length data) row.
(* python's max(low, max_low) and min(high, min_high) *)
Definition pmax (x y : R) : R := if Rlt_dec x y then y else x.
Definition pmin (x y : R) : R := if Rlt_dec y x then y else x.
Definition big : R := 10 ^ 50.
(* the cache: coefficient rows, one per product, and the temperature range they are valid for *)
Record cache := mkCache { c_a : list (list R); c_valid : R * R }.
Definition build (sps : list species) (T : R) (c : cache) : cache :=
  mkCache
    (map (fun rs => overwrite (fst rs) (nth (seg (sp_ranges (snd rs)) T - 1) (sp_coeffs (snd rs)) [])) (combine (c_a c) sps))
    (fold_left (fun mm s => (pmax (nth (seg (sp_ranges s) T - 1) (sp_ranges s) 0) (fst mm),
                             pmin (nth (seg (sp_ranges s) T) (sp_ranges s) 0) (snd mm))) sps (- big, big)).
(* species_data.py:64-65, 107: a = zeros((num_prod,10)), then a first build at 999 *)
Definition cache0 (sps : list species) : cache := mkCache (map (fun _ => repeat 0 10) sps) (0, 0).
Definition cache_init (sps : list species) : cache := build sps 999 (cache0 sps).

(* species_data.py:112-113 and the same test in every property function *)
Definition ensure (sps : list species) (T : R) (c : cache) : cache :=
  if Rlt_dec T (fst (c_valid c)) then build sps T c
  else if Rlt_dec (snd (c_valid c)) T then build sps T c else c.

Definition cf (a : list R) (k : nat) : R := nth k a 0.
(* species_data.py:115 *)
Definition H0_row (a : list R) (T : R) : R :=
  - cf a 0 / T ^ 2 + cf a 1 / T * ln T + cf a 2 + cf a 3 * T / 2 + cf a 4 * T ^ 2 / 3 + cf a 5 * T ^ 3 / 4 + cf a 6 * T ^ 4 / 5 + cf a 7 / T.
(* species_data.py:122 *)
Definition S0_row (a : list R) (T : R) : R :=
  - cf a 0 / (2 * T ^ 2) - cf a 1 / T + cf a 2 * ln T + cf a 3 * T + cf a 4 * T ^ 2 / 2 + cf a 5 * T ^ 3 / 3 + cf a 6 * T ^ 4 / 4 + cf a 8.
(* species_data.py:130 *)
Definition Cp0_row (a : list R) (T : R) : R :=
  cf a 0 / T ^ 2 + cf a 1 / T + cf a 2 + cf a 3 * T + cf a 4 * T ^ 2 + cf a 5 * T ^ 3 + cf a 6 * T ^ 4.
(* species_data.py:137, 144, 151 *)
Definition H0_J_row (a : list R) (T : R) : R :=
  2 * cf a 0 / T ^ 3 + cf a 1 * (1 - ln T) / T ^ 2 + cf a 3 / 2 + 2 * cf a 4 / 3 * T + 3 * cf a 5 / 4 * T ^ 2 + 4 * cf a 6 / 5 * T ^ 3 - cf a 7 / T ^ 2.
Definition S0_J_row (a : list R) (T : R) : R :=
  cf a 0 / T ^ 3 + cf a 1 / T ^ 2 + cf a 2 / T + cf a 3 + cf a 4 * T + cf a 5 * T ^ 2 + 4 * cf a 6 / 4 * T ^ 3.
Definition Cp0_J_row (a : list R) (T : R) : R :=
  -2 * cf a 0 / T ^ 3 - cf a 1 / T ^ 2 + cf a 3 + 2 * cf a 4 * T + 3 * cf a 5 * T ^ 2 + 4 * cf a 6 * T ^ 3.

(* the six public property functions; the applyJ ones take a scalar multiplier vec *)
Inductive query := QH0 | QS0 | QCp0 | QH0_J (vec : R) | QS0_J (vec : R) | QCp0_J (vec : R).
Definition q_row (q : query) (a : list R) (T : R) : R :=
  match q with
  | QH0 => H0_row a T | QS0 => S0_row a T | QCp0 => Cp0_row a T
  | QH0_J v => v * H0_J_row a T | QS0_J v => v * S0_J_row a T | QCp0_J v => v * Cp0_J_row a T
  end.
(* one call: the returned array (one entry per product) and the cache left behind *)
Definition call (sps : list species) (q : query) (T : R) (c : cache) : list R * cache :=
  let c' := ensure sps T c in (map (fun a => q_row q a T) (c_a c'), c').
Definition calls (sps : list species) (l : list (query * R)) (c : cache) : cache :=
  fold_left (fun c qT => snd (call sps (fst qT) (snd qT) c)) l c.

(* species_data.py:17-107 Properties.__init__; the cache is cache_init (p_species p) *)
Record props := mkProps { p_elements : list string; p_products : list string; p_species : list species;
  p_wts : list R; p_aij : list (list R); p_wt_mole : list R; p_b0 : list R }.
Fixpoint get_all {A} (f : string -> option A) (l : list string) : option (list A) :=
  match l with
  | [] => Some []
  | k :: r => match f k, get_all f r with Some v, Some vs => Some (v :: vs) | _, _ => None end
  end.
Fixpoint rsum (l : list R) : R := match l with [] => 0 | x :: r => x + rsum r end.
Fixpoint map2 (f : R -> R -> R) (l1 l2 : list R) : list R :=
  match l1, l2 with x :: r1, y :: r2 => f x y :: map2 f r1 r2 | _, _ => [] end.
(* lines 40-43 *)
Definition valid_elements (sp : spec_data) : list string := flat_map (fun np => dkeys (sp_elems (snd np))) (products sp).
(* lines 52-53 *)
Definition formable (els : list string) (s : species) : bool := forallb (fun e => str_in e els) (dkeys (sp_elems s)).
(* lines 99-105 *)
Definition b0_of (els : list string) (init : dict R) (wts : list R) : list R :=
  let b0 := map (fun e => dgetd init e 0) els in
  let b0 := map2 Rmult b0 wts in
  let b0 := map (fun x => x / rsum b0) b0 in
  map2 Rdiv b0 wts.
Definition mk_properties (sp : spec_data) (init : option (dict R)) : res props :=
  match init with
  | None => Err ValueError
  | Some d =>
      let els := sorted (dkeys d) in
      if forallb (fun e => str_in e (valid_elements sp)) els then
        let prods := filter (fun np => formable els (snd np)) (products sp) in
        match get_all (dget (element_wts sp)) els with
        | None => Err KeyError
        | Some wts =>
            Ok (mkProps els (map fst prods) (map snd prods) wts
                 (map (fun e => map (fun np => dgetd (sp_elems (snd np)) e 0) prods) els)
                 (map (fun np => sp_wt (snd np)) prods)
                 (b0_of els d wts))
        end
      else Err ValueError
  end.
