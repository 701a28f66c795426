(* Model of the groups of pycycle/thermo/cea/chem_eq.py: ThermoCalcs and SetTotalTP (the property calculation of the CEA method), built from
   the components of Model_Equil. *)
From Verif Require Import Spec_Wire Model_Equil.
Open Scope string_scope. Open Scope list_scope. Open Scope R_scope.

Section Cea.
Variable g : gas.
Definition ne1 : nat := S (ne g).
(* a matrix variable with ne1 columns is a vector in row-major order *)
Definition vgetm (l : state) (v : var) : R := match v with M s i j => l s (i * ne1 + j)%nat | _ => vget l v end.
(* props_rhs.py:18-38 *)
Definition tp2ls_sub : sub :=
  mkSub "TP2ls" [("T", ("degK", "284.")); ("n", ("", "zeros")); ("n_moles", ("", "1.")); ("composition", ("", "thermo.b0"))]
    [("rhs_T", ("", "zeros")); ("rhs_P", ("", "zeros")); ("lhs_TP", ("", "eye"))] [PN "T"; PN "n"; PN "n_moles"; PN "composition"] []
    (fun li lo => forall o, In o (outs (props_rhs g)) -> vgetm lo o = compute (props_rhs g) (vget li) (fun _ => 0) o).
(* openmdao LinearSystemComp(size=ne1): the residual A x - b vanishes *)
Definition ls_sub (name : string) : sub :=
  mkSub name [("A", ("", "eye")); ("b", ("", "ones"))] [("x", ("", "ones"))] [] []
    (fun li lo => forall i, (i < ne1)%nat -> nsum ne1 (fun k => li "A" (i * ne1 + k)%nat * lo "x" k) = li "b" i).
(* props_calcs.py:18-40 *)
Definition tp2props_sub : sub :=
  mkSub "tp2props" [("T", ("degK", "284.")); ("P", ("bar", "1.")); ("n", ("", "ones")); ("n_moles", ("", "1.")); ("result_T", ("", "ones")); ("result_P", ("", "ones"))]
    [("h", ("cal/g", "1.")); ("S", ("cal/(g*degK)", "1.")); ("gamma", ("", "1.4")); ("Cp", ("cal/(g*degK)", "1.")); ("Cv", ("cal/(g*degK)", "1."));
     ("rho", ("g/cm**3", "0.0004")); ("R", ("(N*m)/(kg*degK)", "1."))]
    [PN "n"; PN "n_moles"; PN "T"; PN "P"] [PN "h"; PN "S"; PN "gamma"; PN "Cp"; PN "Cv"; PN "rho"; PN "R"] (expl_rel (props_calcs g)).
(* chem_eq.py:18-37 ThermoCalcs.setup *)
Definition thermo_calcs : group :=
  mkGroup [tp2ls_sub; ls_sub "ls2t"; ls_sub "ls2p"; tp2props_sub]
    [("TP2ls.lhs_TP", "ls2t.A"); ("TP2ls.lhs_TP", "ls2p.A"); ("TP2ls.rhs_T", "ls2t.b"); ("TP2ls.rhs_P", "ls2p.b"); ("ls2t.x", "tp2props.result_T"); ("ls2p.x", "tp2props.result_P")] [].
(* chem_eq.py:93-116. The line search keeps n above its lower bound MIN_VALID_CONCENTRATION. The switch remove_trace_species is off: with it on
   the residuals are the same as long as no species is at that bound (theorem C21_trace_off) *)
Definition chem_eq_sub : sub :=
  mkSub "chem_eq" [("composition", ("", "thermo.b0")); ("P", ("bar", "1.0")); ("T", ("degK", "400."))] [("n", ("", "n_init")); ("pi", ("", "ones")); ("n_moles", ("", "0.034"))]
    [PG ""] [PG ""] (fun li lo => (forall j, (j < np g)%nat -> MIN_CONC <= lo "n" j) /\ impl_rel (chem_eq g false) li lo).
(* chem_eq.py:338-352 SetTotalTP.setup; promotes=['*'] (variables with a dot in their name stay inside ThermoCalcs, nothing else reads them) *)
Definition set_total_TP : group := mkGroup [chem_eq_sub; group_sub "props" thermo_calcs [PG ""] [PG ""]] [] [].
(* the properties a converged SetTotalTP gives at T (degK), P (bar, positive) and composition c, in the units it declares *)
Definition cea_tp (T P : R) (c : nat -> R) (p : string -> R) : Prop :=
  0 < P /\ exists w, solves set_total_TP w /\ w "T" 0%nat = T * ufac "degK" /\ w "P" 0%nat = P * ufac "bar" /\ (forall i, (i < ne g)%nat -> w "composition" i = c i) /\
  forall m, In m (souts tp2props_sub) -> w (fst m) 0%nat = p (fst m) * ufac (fst (snd m)).
End Cea.
