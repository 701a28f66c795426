(* Model of pycycle/thermo/cea/thermo_add.py and pycycle/thermo/tabular/thermo_add.py (mixing of streams and reactants),
   and of the delegating group pycycle/thermo/thermo.py:190-248. The partials of both components are computed by OpenMDAO's
   complex step (declare_partials method='cs'), so there is no hand written derivative to model. *)
From Verif Require Export Model_Species.
Open Scope string_scope. Open Scope list_scope. Open Scope R_scope.

(* mix_mode together with mix_composition; a single string or dict is cast to a one element tuple (cea/thermo_add.py:43-45).
   Simplification: mix_mode 'reactant' with dictionaries, or 'flow' with strings, raises a TypeError/ValueError in python and
   has no counterpart here. *)
Inductive mixing := Reactants (l : list string) | Flows (l : list (dict R)).
Record cea_opts := mkCea { o_spec : spec_data; o_inflow : option (dict R); o_mix : mixing; o_names : list string }.

(* constants.py:23-24 *)
Definition CEA_AIR_COMPOSITION : dict R := [("N", 539157698 / 10 ^ 10); ("O", 144860137 / 10 ^ 10); ("Ar", 323319235 / 10 ^ 12); ("C", 110132233 / 10 ^ 13)].

(* cea/thermo_add.py:51-53: mixed.update(spec.reactants[reactant]) for each reactant *)
Fixpoint add_reactants (sp : spec_data) (l : list string) (mixed : dict R) : res (dict R) :=
  match l with
  | [] => Ok mixed
  | r :: l' => match dget (reactants sp) r with None => Err KeyError | Some d => add_reactants sp l' (dupdate mixed d) end
  end.
(* cea/thermo_add.py:28-60 output_port_data *)
Definition cea_port_data (o : cea_opts) : res (dict R) :=
  let infl := match o_inflow o with None => CEA_AIR_COMPOSITION | Some d => d end in
  match o_mix o with
  | Reactants l => add_reactants (o_spec o) l infl
  | Flows l => Ok (fold_left dupdate l infl)
  end.

(* list.index; the length of the list stands for the ValueError of an absent entry, which cannot happen in setup because
   every element of an inflow or mixed stream is a key of the mixed dictionary (theorem C19_index_found) *)
Fixpoint index_of (x : string) (l : list string) : nat :=
  match l with [] => O | y :: r => if String.eqb x y then O else S (index_of x r) end.

(* the component after setup (cea/thermo_add.py:62-146) *)
Record cea_adder := mkAdder {
  ad_inflow : list string;                      (* self.inflow_composition *)
  ad_mixed : list string;                       (* self.mixed_elements *)
  ad_wts : list R;                              (* self.mixed_wt_mole *)
  ad_names : list string;                       (* self.mix_names *)
  ad_reactants : option (list (string * list R)); (* Some: mix_composition with init_fuel_amounts_1kg; None in flow mode *)
  ad_flows : dict (list string * list R) }.     (* per mix name: elements (for mix_out_flow_idx_maps) and mix_wt_mole *)

(* lines 87-93: mass of every mixed element in 1 kg of the reactant *)
Definition fuel_1kg (sp : spec_data) (mixed : list string) (d : dict R) : list R :=
  let a := map (fun e => dgetd d e 0 * dgetd (element_wts sp) e 0) mixed in map (fun x => x / rsum a) a.
(* lines 95-108: the dictionaries keyed by mix name, built over zip(mix_names, mix_composition) *)
Fixpoint setup_flows (sp : spec_data) (l : list (string * dict R)) (acc : dict (list string * list R)) : res (dict (list string * list R)) :=
  match l with
  | [] => Ok acc
  | (name, d) :: l' =>
      match mk_properties sp (Some d) with
      | Err x => Err x
      | Ok p => setup_flows sp l' (dset acc name (p_elements p, p_wts p))
      end
  end.
Fixpoint all_some {A C} (f : A -> option C) (l : list A) : bool :=
  match l with [] => true | x :: r => match f x with Some _ => all_some f r | None => false end end.
(* lines 62-146 setup. OpenMDAO rejects a repeated variable name: two equal mix names raise ValueError in add_input *)
Fixpoint nodupb (l : list string) : bool := match l with [] => true | x :: r => negb (str_in x r) && nodupb r end.
Definition cea_setup (o : cea_opts) : res cea_adder :=
  let sp := o_spec o in
  match cea_port_data o with
  | Err x => Err x
  | Ok mixed_d =>
      match mk_properties sp (o_inflow o) with
      | Err x => Err x
      | Ok p_in =>
          match mk_properties sp (Some mixed_d) with
          | Err x => Err x
          | Ok p_mix =>
              match o_mix o with
              | Reactants l =>
                  if nodupb (o_names o) then
                    match get_all (dget (reactants sp)) l with
                    | None => Err KeyError
                    | Some ds => Ok (mkAdder (p_elements p_in) (p_elements p_mix) (p_wts p_mix) (o_names o)
                                      (Some (map (fun rd => (fst rd, fuel_1kg sp (p_elements p_mix) (snd rd))) (combine l ds))) [])
                    end
                  else Err ValueError
              | Flows l =>
                  match setup_flows sp (combine (o_names o) l) [] with
                  | Err x => Err x
                  | Ok fl =>
                      if nodupb (o_names o) then
                        if all_some (dget fl) (o_names o)
                        then Ok (mkAdder (p_elements p_in) (p_elements p_mix) (p_wts p_mix) (o_names o) None fl)
                        else Err KeyError        (* mix_b0[name] *)
                      else Err ValueError
                  end
              end
          end
      end
  end.

(* numpy vectors of n entries are functions of the index *)
Definition vec := nat -> R.
Definition vsum (n : nat) (v : vec) : R := lsum v (seq 0 n).
(* the 0/1 matrix of lines 105-108 / 136-139 (rows: mixed elements, columns: els), applied to a vector *)
Definition idx_map (mixed els : list string) (j i : nat) : R := if Nat.eqb (index_of (nth i els "") mixed) j then 1 else 0.
Definition apply_map (mixed els : list string) (v : vec) : vec :=
  fun j => lsum (fun i => idx_map mixed els j i * v i) (seq 0 (List.length els)).
Definition wt (l : list R) : vec := fun i => nth i l 0.

(* the local variables of compute, and the outputs *)
Record cst := mkCst { c_b0 : vec; c_h : R; c_W : R; c_out : env }.
(* lines 151-163 *)
Definition cea_start (a : cea_adder) (e old : env) : cst :=
  let W := e (V "Fl_I:stat:W") in
  let n := List.length (ad_mixed a) in
  let b := apply_map (ad_mixed a) (ad_inflow a) (fun i => e (I "Fl_I:tot:composition" i)) in
  let b := fun j => b j * wt (ad_wts a) j in
  let s := vsum n b in
  let b := fun j => b j / s in
  let b := fun j => b j * W in
  mkCst b (e (V "Fl_I:tot:h") * W) W old.
(* lines 166-174 *)
Definition cea_react_step (e : env) (c : cst) (nr : string * (string * list R)) : cst :=
  let W := e (V "Fl_I:stat:W") in
  let name := fst nr in
  let W_mix := W * e (B name "ratio") in
  mkCst (fun j => c_b0 c j + wt (snd (snd nr)) j * W_mix) (c_h c + e (B name "h") * W_mix) (c_W c + W_mix) (upd (c_out c) (B name "W") W_mix).
(* lines 177-187 *)
Definition cea_flow_step (a : cea_adder) (e : env) (c : cst) (name : string) : cst :=
  let W_mix := e (B name "W") in
  match dget (ad_flows a) name with
  | None => c                                    (* excluded by setup *)
  | Some (els, wts) =>
      let m := fun i => e (I (name ++ ":composition") i) * wt wts i in
      let s := vsum (List.length els) m in
      let m := fun i => m i / s * W_mix in
      mkCst (fun j => c_b0 c j + apply_map (ad_mixed a) els m j) (c_h c + e (B name "h") * W_mix) (c_W c + W_mix) (c_out c)
  end.
(* lines 148-194 compute. init_fuel_amounts_1kg is a dictionary keyed by reactant; its value depends only on the reactant, so
   the pair list is equivalent *)
Definition upd_vec (e : env) (nm : string) (n : nat) (v : vec) : env :=
  fold_left (fun e j => upd e (I nm j) (v j)) (seq 0 n) e.
Definition cea_mix (a : cea_adder) (e old : env) : cst :=
  match ad_reactants a with
  | Some rs => fold_left (cea_react_step e) (combine (ad_names a) rs) (cea_start a e old)
  | None => fold_left (cea_flow_step a e) (ad_names a) (cea_start a e old)
  end.
Definition cea_compute (a : cea_adder) (e old : env) : env :=
  let c := cea_mix a e old in
  let n := List.length (ad_mixed a) in
  let s := vsum n (c_b0 c) in
  let b := fun j => c_b0 c j / s in
  upd (upd (upd_vec (c_out c) "composition_out" n (fun j => b j / wt (ad_wts a) j)) (V "mass_avg_h") (c_h c / c_W c)) (V "Wout") (c_W c).

(* ---------- tabular ---------- *)
(* tabular/thermo_add.py: mix_composition is one key of the inflow composition (reactant mode) and unused in flow mode *)
Inductive tab_mode := TReactant (r : string) | TFlow.
Record tab_opts := mkTab { t_inflow : option (dict R); t_mode : tab_mode; t_names : list string }.
(* constants.py:28 *)
Definition TAB_AIR_FUEL_COMPOSITION : dict R := [("FAR", 0)].
Definition tab_inflow (o : tab_opts) : dict R := match t_inflow o with None => TAB_AIR_FUEL_COMPOSITION | Some d => d end.
(* lines 30-46: returns None always; fills self.sorted_compo, self.idx_compo; list.index raises ValueError *)
Definition tab_port_data (o : tab_opts) : res (option (dict R)) :=
  match t_mode o with
  | TReactant r => if str_in r (sorted (dkeys (tab_inflow o))) then Ok None else Err ValueError
  | TFlow => Ok None
  end.
Record tab_adder := mkTabAdder { ta_n : nat; ta_idx : option nat; ta_names : list string; ta_default : list R }.
(* lines 48-91 setup *)
Definition tab_setup (o : tab_opts) : res tab_adder :=
  match tab_port_data o with
  | Err x => Err x
  | Ok _ => if nodupb (t_names o) then
      Ok (mkTabAdder (List.length (tab_inflow o))
           (match t_mode o with TReactant r => Some (index_of r (sorted (dkeys (tab_inflow o)))) | TFlow => None end) (t_names o) (dvals (tab_inflow o)))
      else Err ValueError
  end.
(* local variables of compute: W_out, W_other_out, W_air_out, W_times_h, outputs *)
Record tst := mkTst { t_W : R; t_other : vec; t_air : R; t_h : R; t_out : env }.
(* lines 93-117 *)
Definition tab_start (a : tab_adder) (e old : env) : tst :=
  let compo := fun i => e (I "Fl_I:tot:composition" i) in
  let W := e (V "Fl_I:stat:W") in
  let W_air := W / (1 + vsum (ta_n a) compo) in
  mkTst (0 + W) (fun i => 0 + W_air * compo i) W_air (W * e (V "Fl_I:tot:h")) old.
(* lines 121-129 *)
Definition tab_react_step (idx : nat) (W_air_in : R) (e : env) (c : tst) (name : string) : tst :=
  let W_mix := W_air_in * e (B name "ratio") in
  mkTst (t_W c + W_mix) (fun i => if Nat.eqb i idx then t_other c i + W_mix else t_other c i) (t_air c)
    (t_h c + W_mix * e (B name "h")) (upd (t_out c) (B name "W") W_mix).
(* lines 137-145 *)
Definition tab_flow_step (n : nat) (e : env) (c : tst) (name : string) : tst :=
  let compo := fun i => e (I (name ++ ":composition") i) in
  let W_mix := e (B name "W") in
  let W_air := W_mix / (1 + vsum n compo) in
  mkTst (t_W c + W_mix) (fun i => t_other c i + W_air * compo i) (t_air c + W_air) (t_h c + W_mix * e (B name "h")) (t_out c).
(* lines 93-151 compute *)
Definition tab_finish (n : nat) (air : R) (c : tst) : env :=
  upd (upd (upd_vec (t_out c) "composition_out" n (fun i => t_other c i / air)) (V "Wout") (t_W c)) (V "mass_avg_h") (t_h c / t_W c).
Definition tab_compute (a : tab_adder) (e old : env) : env :=
  let s := tab_start a e old in
  match ta_idx a with
  | Some idx => tab_finish (ta_n a) (t_air s) (fold_left (tab_react_step idx (t_air s) e) (ta_names a) s)
  | None => let c := fold_left (tab_flow_step (ta_n a) e) (ta_names a) s in tab_finish (ta_n a) (t_air c) c
  end.
