(* Model of pycycle/mp_cycle.py class Cycle: construction of the flow graph by
   add_subsystem / pyc_connect_flow and its traversal in setup. *)
From Verif Require Export Spec_Py.
Open Scope list_scope.

(* ---------- networkx.DiGraph with the attributes used by pyCycle ---------- *)
(* node attributes: 'type' (mp_cycle.py:68,190,191), 'parent', 'port_name'.
   An attribute that was never given is None. *)
Inductive ntype := T_element | T_out_port | T_in_port.
Record attrs := mkAttrs { a_type : option ntype; a_parent : option string; a_port : option string }.
Definition no_attrs : attrs := mkAttrs None None None.

(* nodes in insertion order; edges in insertion order, without duplicates *)
Record graph := mkGraph { g_nodes : dict attrs; g_edges : list (string * string) }.
Definition empty_graph : graph := mkGraph [] [].

Definition or_else {A} (a b : option A) : option A :=
  match a with Some _ => a | None => b end.

(* networkx add_node(n, **attr): inserts or updates the attribute dict *)
Definition add_node (g : graph) (n : string) (a : attrs) : graph :=
  let old := match dget (g_nodes g) n with Some o => o | None => no_attrs end in
  mkGraph (dset (g_nodes g) n (mkAttrs (or_else (a_type a) (a_type old))
                                       (or_else (a_parent a) (a_parent old))
                                       (or_else (a_port a) (a_port old))))
          (g_edges g).

Definition edge_eqb (x y : string * string) : bool :=
  String.eqb (fst x) (fst y) && String.eqb (snd x) (snd y).

(* networkx add_edge(u, v): creates missing nodes u, then v, without
   attributes; an existing edge is not duplicated *)
Definition add_edge (g : graph) (u v : string) : graph :=
  let g1 := add_node g u no_attrs in
  let g2 := add_node g1 v no_attrs in
  if existsb (edge_eqb (u, v)) (g_edges g2) then g2
  else mkGraph (g_nodes g2) (g_edges g2 ++ [(u, v)]).

Definition nodes (g : graph) : list string := dkeys (g_nodes g).
Definition preds (g : graph) (n : string) : list string :=
  map fst (filter (fun e => String.eqb (snd e) n) (g_edges g)).
Definition succs (g : graph) (n : string) : list string :=
  map snd (filter (fun e => String.eqb (fst e) n) (g_edges g)).
Definition in_degree (g : graph) (n : string) : nat := List.length (preds g n).

(* ---------- Cycle as seen through its building API ---------- *)
(* c_elems: names of children that are Elements, in insertion order *)
Record cycle := mkCycle { c_children : list string; c_elems : list string; c_graph : graph }.
Definition empty_cycle : cycle := mkCycle [] [] empty_graph.

Inductive build_op :=
| AddSubsystem (name : string) (is_element : bool)
| ConnectFlow (fl_src fl_target : string).

(* mp_cycle.py:55-72 add_subsystem (the OpenMDAO part is not modelled) *)
Definition add_subsystem (c : cycle) (name : string) (is_element : bool) : cycle :=
  if is_element then
    mkCycle (c_children c ++ [name]) (c_elems c ++ [name])
            (add_node (c_graph c) name (mkAttrs (Some T_element) None None))
  else mkCycle (c_children c ++ [name]) (c_elems c) (c_graph c).

(* mp_cycle.py:180-184 names derived from a port path *)
Definition port_parent (path : string) : string := join_empty (removelast (split_on "." path)).
Definition port_name (path : string) : string := last (split_on "." path) "".

(* mp_cycle.py:179-195 graph part of pyc_connect_flow *)
Definition connect_flow (c : cycle) (fl_src fl_target : string) : cycle :=
  let se := port_parent fl_src in let sp := port_name fl_src in
  let te := port_parent fl_target in let tp := port_name fl_target in
  let g := c_graph c in
  let g := add_node g fl_src (mkAttrs (Some T_out_port) (Some se) (Some sp)) in
  let g := add_node g fl_target (mkAttrs (Some T_in_port) (Some te) (Some tp)) in
  let g := add_edge g se fl_src in
  let g := add_edge g fl_src fl_target in
  let g := add_edge g fl_target te in
  mkCycle (c_children c) (c_elems c) g.

Definition apply_op (c : cycle) (o : build_op) : cycle :=
  match o with
  | AddSubsystem n b => add_subsystem c n b
  | ConnectFlow s t => connect_flow c s t
  end.
Definition build (ops : list build_op) : cycle := fold_left apply_op ops empty_cycle.

(* ---------- Cycle.setup: traversal ---------- *)
Section Setup.
Context {D : Type}.                       (* port data *)
(* per-element dictionaries Fl_I_data / Fl_O_data (element_base.py:19-20) *)
Definition store := string -> dict D.
(* what an element's pyc_setup_output_ports does: from its Fl_I_data and old
   Fl_O_data to its new Fl_O_data, or an exception *)
Definition behaviour := string -> dict D -> dict D -> res (dict D).

Definition supd (s : store) (n : string) (d : dict D) : store :=
  fun m => if String.eqb n m then d else s m.

Record state := mkState {
  queue : list string;
  visited : list string;          (* python set; newest first *)
  fi : store; fo : store;
  (* observable calls, newest first: elements whose pyc_setup_output_ports ran,
     together with the Fl_I_data they saw *)
  calls : list (string * dict D) }.

Variable c : cycle.
Variable beh : behaviour.
Let g := c_graph c.

(* mp_cycle.py:124, 129 and 135 self._get_subsystem(...) then attribute access:
   anything that is not an Element child has no Fl_I_data/Fl_O_data *)
Definition is_elem (n : string) : bool := str_in n (c_elems c).

Definition get_attr (n : string) : attrs :=
  match dget (g_nodes g) n with Some a => a | None => no_attrs end.

(* mp_cycle.py:130-151 the loop over the out-edges of an out_port node *)
Fixpoint do_links (src out_port : string) (links : list string) (fi fo : store) : res store :=
  match links with
  | [] => Ok fi
  | l :: ls =>
      match a_parent (get_attr l), a_port (get_attr l) with
      | Some te, Some in_port =>
          if negb (is_elem src) then Err AttributeError
          else match dget (fo src) out_port with
               | None => Err RuntimeError
               | Some d =>
                   if negb (is_elem te) then Err AttributeError
                   else do_links src out_port ls (supd fi te (dset (fi te) in_port d)) fo
               end
      | _, _ => Err KeyError
      end
  end.

Definition ready (v : list string) (n : string) : bool :=
  forallb (fun p => str_in p v) (preds g n).

(* mp_cycle.py:105-153 body of the while loop, for a popped node *)
Definition process (s : state) (n : string) (q : list string) : res state :=
  match a_type (get_attr n) with
  | None => Err KeyError
  | Some ty =>
      if negb (ready (visited s) n) then Ok (mkState q (visited s) (fi s) (fo s) (calls s))
      else
        let q := q ++ succs g n in
        if str_in n (visited s) then Ok (mkState q (visited s) (fi s) (fo s) (calls s))
        else
          match ty with
          | T_element =>
              if negb (is_elem n) then Err AttributeError else
              match beh n (fi s n) (fo s n) with
              | Err e => Err e
              | Ok d => Ok (mkState q (n :: visited s) (fi s) (supd (fo s) n d)
                                    ((n, fi s n) :: calls s))
              end
          | T_out_port =>
              match a_parent (get_attr n), a_port (get_attr n) with
              | Some se, Some op =>
                  match do_links se op (succs g n) (fi s) (fo s) with
                  | Err e => Err e
                  | Ok fi' => Ok (mkState q (n :: visited s) fi' (fo s) (calls s))
                  end
              | _, _ => Err KeyError
              end
          | T_in_port => Ok (mkState q (n :: visited s) (fi s) (fo s) (calls s))
          end
  end.

(* mp_cycle.py:104 while queue: node = queue.pop(0) ...
   None = fuel exhausted, Some r = the loop ended with r *)
Fixpoint loop (fuel : nat) (s : state) : option (res state) :=
  match queue s with
  | [] => Some (Ok s)
  | n :: q =>
      match fuel with
      | O => None
      | S k => match process s n q with
               | Err e => Some (Err e)
               | Ok s' => loop k s'
               end
      end
  end.

(* the states the while loop passes through, starting from s0 *)
Inductive reaches (s0 : state) : state -> Prop :=
| reach_refl : reaches s0 s0
| reach_step s n q s' : reaches s0 s -> queue s = n :: q -> process s n q = Ok s' -> reaches s0 s'.

(* mp_cycle.py:87-88 initial queue and visited set *)
Definition init (fi0 fo0 : store) : state :=
  mkState (filter (fun n => Nat.eqb (in_degree g n) 0) (nodes g)) [] fi0 fo0 [].

Definition setup (fuel : nat) (fi0 fo0 : store) : option (res state) := loop fuel (init fi0 fo0).
End Setup.
Arguments state D : clear implicits.
