(* Model of the variable connections issued by pyc_connect_flow, of the inputs
   declared by FlowIn, and of the option push-down in Cycle.setup. *)
From Verif Require Export Spec_Py.
Open Scope list_scope.

Definition cat (a b : string) : string := (a ++ b)%string.

(* mp_cycle.py:161-177 connection groups; each connection is (source, target) *)
Definition tot_names : list string := ["h"; "T"; "P"; "S"; "rho"; "gamma"; "Cp"; "Cv"; "R"].      (* 165 *)
Definition stat_names1 : list string := ["V"; "Vsonic"].                                           (* 170 *)
Definition stat_names2 : list string := ["Cp"; "Cv"; "MN"; "P"; "S"; "T"; "area"; "gamma"; "h"; "rho"]. (* 173 *)

(* mp_cycle.py:156-177 pyc_connect_flow, connections part, in call order.
   A connect with a list of targets is one pair per target. *)
Definition flow_connections (src tgt : string) (connect_stat connect_tot connect_w : bool)
  : list (string * string) :=
  [ (cat src ":tot:composition", cat tgt ":tot:composition");
    (cat src ":tot:composition", cat tgt ":stat:composition") ]
  ++ (if connect_tot then map (fun v => (cat src (cat ":tot:" v), cat tgt (cat ":tot:" v))) tot_names else [])
  ++ (if connect_stat then
        map (fun v => (cat src (cat ":stat:" v), cat tgt (cat ":stat:" v))) stat_names1
        ++ map (fun v => (cat src (cat ":stat:" v), cat tgt (cat ":stat:" v))) stat_names2
      else [])
  ++ (if connect_w then [ (cat src ":stat:W", cat tgt ":stat:W") ] else []).

(* flow_in.py:24-53 inputs declared by FlowIn.setup for fl_name *)
Definition flow_in_inputs (fl_name : string) : list string :=
  map (fun v => cat fl_name v)
    [ ":tot:h"; ":tot:T"; ":tot:P"; ":tot:rho"; ":tot:gamma"; ":tot:Cp"; ":tot:Cv"; ":tot:S"; ":tot:R";
      ":tot:composition";
      ":stat:h"; ":stat:T"; ":stat:P"; ":stat:rho"; ":stat:gamma"; ":stat:Cp"; ":stat:Cv"; ":stat:S"; ":stat:R";
      ":stat:composition";
      ":stat:V"; ":stat:Vsonic"; ":stat:MN"; ":stat:area"; ":stat:Wc"; ":stat:W"; ":FAR" ].

(* mp_cycle.py:91-96 push the cycle level options onto every child.  An
   options object is a dictionary; the cycle always declares the three options
   (mp_cycle.py:16-24), so the lookup in its own options cannot fail; a missing
   key would be a KeyError. *)
Definition cycle_level_options : list string := ["thermo_method"; "thermo_data"; "design"].

Fixpoint push_child {V} (cyc : dict V) (opts : list string) (child : dict V) : res (dict V) :=
  match opts with
  | [] => Ok child
  | o :: r => if dmem child o then
                match dget cyc o with
                | Some v => push_child cyc r (dset child o v)
                | None => Err KeyError
                end
              else push_child cyc r child
  end.

Fixpoint push_options {V} (cyc : dict V) (children : dict (dict V)) : res (dict (dict V)) :=
  match children with
  | [] => Ok []
  | (n, o) :: r =>
      match push_child cyc cycle_level_options o with
      | Err e => Err e
      | Ok o' => match push_options cyc r with
                 | Err e => Err e
                 | Ok r' => Ok ((n, o') :: r')
                 end
      end
  end.
