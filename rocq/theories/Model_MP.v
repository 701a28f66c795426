(* Model of pycycle/mp_cycle.py class MPCycle: bookkeeping of design and
   off-design points and the actions issued by configure. *)
From Verif Require Export Spec_Py.
Open Scope list_scope.

(* the value of a point's 'design' option as compared by  is True / is False *)
Inductive pybool := PyTrue | PyFalse | PyOther.    (* PyOther: e.g. 1, np.True_ *)

(* a point (a Cycle): its Elements, each with its default_des_od_conns, None if
   the attribute is not defined by the element class *)
Record point := mkPoint {
  p_design : pybool;
  p_elements : list (string * option (list (string * string))) }.

(* skip argument of pyc_use_default_des_od_conns (mp_cycle.py:226):
   None, a collection of names, or a plain string *)
Inductive skip_arg := SkipNone | SkipNames (l : list string) | SkipStr (s : string).

Record mp (V : Type) := mkMP {
  m_params : dict V;                       (* _cycle_params *)
  m_des : option (string * point);         (* _des_pnt with the name it was added under *)
  m_od : list (string * point);            (* _od_pnts *)
  m_conns : list (string * string);        (* _des_od_connections *)
  m_default : bool;                        (* _use_default_des_od_conns *)
  m_skip : skip_arg;
  m_subsystems : list string }.            (* names given to add_subsystem *)
Arguments mkMP {V}. Arguments m_params {V}. Arguments m_des {V}. Arguments m_od {V}.
Arguments m_conns {V}. Arguments m_default {V}. Arguments m_skip {V}. Arguments m_subsystems {V}.

(* mp_cycle.py:199-205 __init__ *)
Definition mp_init {V} : mp V := mkMP [] None [] [] false SkipNone [].

Inductive mp_op (V : Type) :=
| AddParam (name : string) (val : V)
| ConnectDesOd (src target : string)
| UseDefault (skip : skip_arg)
| AddPnt (name : string) (pnt : point).
Arguments AddParam {V}. Arguments ConnectDesOd {V}. Arguments UseDefault {V}. Arguments AddPnt {V}.

(* One API call: new state (unchanged if it raised) and the exception, if any. *)
Definition mp_step {V} (m : mp V) (o : mp_op V) : mp V * option exn :=
  match o with
  | AddParam name val =>                                   (* mp_cycle.py:208-215 *)
      if dmem (m_params m) name then (m, Some ValueError)
      else (mkMP (dset (m_params m) name val) (m_des m) (m_od m) (m_conns m) (m_default m) (m_skip m) (m_subsystems m), None)
  | ConnectDesOd src target =>                             (* mp_cycle.py:217-224 *)
      match m_des m with
      | None => (m, Some ValueError)
      | Some _ => match m_od m with
                  | [] => (m, Some ValueError)
                  | _ => (mkMP (m_params m) (m_des m) (m_od m) (m_conns m ++ [(src, target)]) (m_default m) (m_skip m) (m_subsystems m), None)
                  end
      end
  | UseDefault skip =>                                     (* mp_cycle.py:226-234 *)
      match m_des m with
      | None => (m, Some ValueError)
      | Some _ => match m_od m with
                  | [] => (m, Some ValueError)
                  | _ => (mkMP (m_params m) (m_des m) (m_od m) (m_conns m) true skip (m_subsystems m), None)
                  end
      end
  | AddPnt name pnt =>                                     (* mp_cycle.py:236-247 *)
      match p_design pnt with
      | PyTrue => match m_des m with
                  | Some _ => (m, Some ValueError)
                  | None => (mkMP (m_params m) (Some (name, pnt)) (m_od m) (m_conns m) (m_default m) (m_skip m) (m_subsystems m ++ [name]), None)
                  end
      | PyFalse => (mkMP (m_params m) (m_des m) (m_od m ++ [(name, pnt)]) (m_conns m) (m_default m) (m_skip m) (m_subsystems m ++ [name]), None)
      | PyOther => (m, None)
      end
  end.

(* a history: final state and, for each call in order, the exception raised *)
Fixpoint mp_run {V} (m : mp V) (ops : list (mp_op V)) : mp V * list (mp_op V * option exn) :=
  match ops with
  | [] => (m, [])
  | o :: r => let '(m', e) := mp_step m o in
              let '(m'', log) := mp_run m' r in (m'', (o, e) :: log)
  end.

(* what configure asks OpenMDAO to do *)
Inductive action (V : Type) :=
| SetDefault (param : string) (val : V)
| Promote (pnt param : string)
| Connect (src target : string).
Arguments SetDefault {V}. Arguments Promote {V}. Arguments Connect {V}.

Definition dot (a b : string) : string := (a ++ "." ++ b)%string.

(* mp_cycle.py:270  elem.name in skip *)
Definition skipped (sk : skip_arg) (n : string) : bool :=
  match sk with SkipNone => false | SkipNames l => str_in n l | SkipStr s => is_substr n s end.

(* mp_cycle.py:255-260 *)
Definition conf_params {V} (m : mp V) : res (list (action V)) :=
  match m_params m, m_des m with
  | [], _ => Ok []
  | _, None => Err AttributeError                    (* None.name *)
  | ps, Some (dn, _) =>
      Ok (flat_map (fun pv => SetDefault (fst pv) (snd pv) :: Promote dn (fst pv)
                              :: map (fun od => Promote (fst od) (fst pv)) (m_od m)) ps)
  end.

(* mp_cycle.py:263-265 *)
Definition conf_conns {V} (m : mp V) : res (list (action V)) :=
  match m_conns m, m_des m with
  | [], _ => Ok []
  | _, None => match m_od m with [] => Ok [] | _ => Err AttributeError end
  | cs, Some (dn, _) =>
      Ok (flat_map (fun st => map (fun od => Connect (dot dn (fst st)) (dot (fst od) (snd st))) (m_od m)) cs)
  end.

(* mp_cycle.py:267-277; _elements is a python set, elems is its iteration order *)
Definition conf_default {V} (m : mp V) (elems : list (string * option (list (string * string)))) : res (list (action V)) :=
  if m_default m then
    match m_des m with
    | None => Err AttributeError
    | Some (dn, _) =>
        Ok (flat_map (fun el =>
              if skipped (m_skip m) (fst el) then []
              else match snd el with
                   | None => []                          (* except AttributeError: pass *)
                   | Some cs => flat_map (fun st => map (fun od =>
                        Connect (dot dn (dot (fst el) (fst st))) (dot (fst od) (dot (fst el) (snd st)))) (m_od m)) cs
                   end) elems)
    end
  else Ok [].

(* mp_cycle.py:250-277 configure *)
Definition configure {V} (m : mp V) (elems : list (string * option (list (string * string)))) : res (list (action V)) :=
  match conf_params m with
  | Err e => Err e
  | Ok a => match conf_conns m with
            | Err e => Err e
            | Ok b => match conf_default m elems with
                      | Err e => Err e
                      | Ok c => Ok (a ++ b ++ c)
                      end
            end
  end.
