(* Model of a whole Cycle (mp_cycle.py:34-152): elements of pycycle/elements added as subsystems and joined by pyc_connect_flow.
   Simplifications: elements are added without promotions of their own, so that a variable x of element n is called n.x; connections other than
   pyc_connect_flow (shaft torques, balances, cycle parameters) only restrict the set of states further and are not part of `running`. *)
From Verif Require Export Model_Elem2 Model_Connect Model_Shaft.
Open Scope string_scope. Open Scope list_scope. Open Scope R_scope.

(* the element classes and their options; design, thermo_method and thermo_data are pushed down by the Cycle (mp_cycle.py:91-96) *)
Inductive ekind :=
| EStart (add : option (adder * string)) | EFlight (add : option (adder * string)) | ECfd
| EInlet (statics : bool) | EDuct (statics with_MN : bool) (expMN : R) | ESplitter (statics : bool) | EBleedOut (bs : list string) (statics : bool)
| ECombustor (a : adder) (statics : bool) | ECompressor (mp : R -> R -> R -> string -> R -> Prop) (r_stall : R) (bs : list string) (statics : bool)
| ETurbine (mp : R -> R -> R -> string -> R -> Prop) (a : adder) (bs : list string) (statics : bool) | ENozzle (nt : nozz) (lc : loss_coef) | EMixer (a : adder) (one : bool).
Section Cycle.
Variable tp : R -> R -> (nat -> R) -> (string -> R) -> Prop.
Variable me : method.
Variable design : bool.
Definition egroup (k : ekind) : group :=
  match k with
  | EStart add => flow_start tp me add | EFlight add => flight_conditions tp me add | ECfd => cfd_start tp me
  | EInlet st => inlet tp me st design | EDuct st wm ex => duct tp me st design wm ex | ESplitter st => splitter tp me st design
  | EBleedOut bs st => bleed_out tp me bs st design | ECombustor a st => combustor tp me a st design
  | ECompressor mp rs bs st => compressor tp me mp rs bs st design | ETurbine mp a bs st => turbine tp me mp a bs st design
  | ENozzle nt lc => nozzle tp me nt lc | EMixer a one => mixer tp me a one design
  end.
(* flow ports (pyc_setup_output_ports of the elements; C43 has them as port data) *)
Definition e_in (k : ekind) : list string :=
  match k with
  | EStart _ | EFlight _ | ECfd => []
  | EInlet _ | EDuct _ _ _ | ESplitter _ | EBleedOut _ _ | ECombustor _ _ | ECompressor _ _ _ _ | ENozzle _ _ => ["Fl_I"]
  | ETurbine _ _ bs _ => "Fl_I" :: bs
  | EMixer _ _ => ["Fl_I1"; "Fl_I2"]
  end.
Definition e_out (k : ekind) : list string :=
  match k with
  | EStart _ | EFlight _ | ECfd | EInlet _ | EDuct _ _ _ | ECombustor _ _ | ETurbine _ _ _ _ | ENozzle _ _ | EMixer _ _ => ["Fl_O"]
  | ESplitter _ => ["Fl_O1"; "Fl_O2"]
  | EBleedOut bs _ | ECompressor _ _ bs _ => "Fl_O" :: bs
  end.
(* a port is an element's name and a port name; a link is one call of pyc_connect_flow('n.p', 'm.q', connect_stat, connect_tot, connect_w) *)
Definition port := (string * string)%type.
Record link := mkLink { l_src : port; l_tgt : port; l_stat : bool; l_tot : bool; l_w : bool }.
Definition path (p : port) : string := (fst p ++ "." ++ snd p)%string.
(* what element n sees of the cycle's variables *)
Definition local (w : state) (n : string) : state := fun x => w (n ++ "." ++ x)%string.
(* a converged cycle: every element is solved and every flow connection holds *)
Definition running (els : list (string * ekind)) (links : list link) (w : state) : Prop :=
  (forall n k, In (n, k) els -> solves (egroup k) (local w n)) /\
  (forall l, In l links -> forall a b, In (a, b) (flow_connections (path (l_src l)) (path (l_tgt l)) (l_stat l) (l_tot l) (l_w l)) -> forall i, w b i = w a i).
End Cycle.

(* ---- a shaft (shaft.py:6-72) in a cycle: cycle.connect('n.trq', 'shaft.trq_i') for the i-th element n on it; all of them have the shaft's Nmech.
   e holds the inputs of the shaft component in its declared units (Nmech rpm, HPX hp, trq_i ft*lbf) ---- *)
Definition shaft_on (w : state) (on : list string) (e : env) : Prop :=
  forall i n, nth_error on i = Some n -> e (I "trq_" i) = local w n "trq" 0%nat / ufac "ft*lbf" /\ e (V "Nmech") = local w n "Nmech" 0%nat / ufac "rpm".
