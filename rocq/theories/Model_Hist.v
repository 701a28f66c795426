(* Components that keep data on their Python instance between calls: which calls a driver makes, in which order, can matter.
   pycycle/elements/compressor.py (CorrectedInputsCalc), pycycle/thermo/cea/props_rhs.py (PropsRHS) and
   pycycle/thermo/cea/chem_eq.py (ChemEq). OpenMDAO calls compute / apply_nonlinear (Run) and compute_partials / linearize (Lin)
   in an order that depends on the solver, the line search and the driver: here any order at all. *)
From Verif Require Export Spec_Comp Model_Turbo Model_Equil.
Open Scope string_scope. Open Scope list_scope. Open Scope R_scope.

(* one call on the component, with the values the framework passes in *)
Inductive event := Run (e : env) | Lin (e : env).
(* an instance: its attributes, their values after __init__/setup, and what the two methods do. None: AttributeError (an attribute
   that is read was never set) *)
Record instance := mkInst { attrs : Type; fresh : attrs; i_decls : list decl;
  i_run : attrs -> env -> env -> env * attrs; i_lin : attrs -> env -> jac -> option jac }.
(* the instance, together with the Jacobian the framework keeps for it, after a sequence of calls *)
Fixpoint play (c : instance) (l : list event) (s : attrs c) (J : jac) : option (attrs c * jac) :=
  match l with
  | [] => Some (s, J)
  | Run e :: r => play c r (snd (i_run c s e (fun _ => 0))) J
  | Lin e :: r => match i_lin c s e J with None => None | Some J' => play c r s J' end
  end.
Definition played (c : instance) (l : list event) : option (attrs c * jac) := play c l (fresh c) (jinit (i_decls c)).
(* what a further call of compute at e returns (None: an earlier call raised) *)
Definition values (c : instance) (l : list event) (e old : env) : option env :=
  match played c l with None => None | Some (s, _) => Some (fst (i_run c s e old)) end.
(* the Jacobian the framework holds *)
Definition jacobian (c : instance) (l : list event) : option jac := match played c l with None => None | Some (_, J) => Some J end.

(* compressor.py:18-55: self.delta, self.W, self.theta do not exist before the first compute *)
Definition i_corrected : instance :=
  mkInst (option env) None (decls c_corrected_inputs)
    (fun _ e old => (cci_compute e old, Some (cci_self e)))
    (fun s e J => match s with None => None | Some a => Some (cci_partials_self a e J) end).
(* props_rhs.py:20-137: self.H0_T does not exist before the first compute *)
Definition i_rhs (g : gas) : instance :=
  mkInst (option (nat -> R)) None (rhs_decls g)
    (fun _ e old => (rhs_compute g e old, Some (fun k => H0 g k (e (V "T")))))
    (fun s e J => match s with None => None | Some h => Some (rhs_partials_self g h e J) end).
(* chem_eq.py:60-317 *)
Definition i_chem_eq (g : gas) : instance :=
  mkInst ce_state ce_init (decls (chem_eq g false)) (ce_apply g) (ce_linearize g).
