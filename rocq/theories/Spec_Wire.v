(* Groups of components: promotion, connection, units, and what a converged group means (the OpenMDAO semantics assumed by the wiring
   claims). A group's variables are named by strings; a state w gives every name a vector of reals in SI units (scalars at index 0). *)
From Coq Require Export Bool.
From Verif Require Export Spec_Comp.
Open Scope string_scope. Open Scope list_scope. Open Scope R_scope.

Definition state := string -> nat -> R.

(* ---- units (OpenMDAO's unit library, a dependency that is not part of /repo): SI value of one unit ---- *)
Definition u_lbm : R := 45359237 / 10 ^ 8.
Definition u_ft : R := 3048 / 10 ^ 4.
Definition u_inch : R := 254 / 10 ^ 4.
Definition u_lbf : R := u_lbm * (980665 / 10 ^ 5).
Definition u_btu : R := 105505585262 / 10 ^ 8.
Definition u_cal : R := 4184 / 10 ^ 3.
Definition u_hp : R := 550 * u_ft * u_lbf.
Definition units : list (string * R) :=
  [("degR", 5 / 9); ("bar", 10 ^ 5); ("lbf/inch**2", u_lbf / u_inch ^ 2);
   ("cal/g", u_cal * 10 ^ 3); ("cal/(g*degK)", u_cal * 10 ^ 3); ("Btu/lbm", u_btu / u_lbm); ("Btu/(lbm*degR)", u_btu / u_lbm * (9 / 5));
   ("g/cm**3", 10 ^ 3); ("lbm/ft**3", u_lbm / u_ft ^ 3); ("lbm/s", u_lbm); ("ft/s", u_ft); ("inch**2", u_inch ^ 2);
   ("lbf", u_lbf); ("Btu/s", u_btu); ("hp", u_hp); ("ft*lbf", u_ft * u_lbf); ("psi", u_lbf / u_inch ^ 2); ("ft", u_ft);
   ("slug/ft**3", u_lbf / u_ft / u_ft ^ 3); ("slug/ft**4", u_lbf / u_ft / u_ft ^ 4)].
(* units that are not listed (degK, Pa, J/kg, J/kg/degK, (N*m)/(kg*degK), kg/m**3, kg/s, m/s, m**2, none) are SI: factor 1; so is rpm, the only
   unit of rotational speed in the code *)
Fixpoint lookup {A} (d : A) (l : list (string * A)) (x : string) : A :=
  match l with [] => d | (y, a) :: r => if String.eqb x y then a else lookup d r x end.
Definition ufac (u : string) : R := lookup 1 units u.

(* python: needle in haystack *)
Fixpoint contains (needle hay : string) : bool :=
  prefix needle hay || match hay with EmptyString => false | String _ r => contains needle r end.
Fixpoint suffixb (s z : string) : bool := String.eqb s z || match z with EmptyString => false | String _ r => suffixb s r end.
(* ---- promotion: 'x', ('x', 'alias'), 'prefix*', '*suffix', '*part*' ---- *)
Inductive promo := PN (x : string) | PA (x alias : string) | PG (pre : string) | PS (suf : string) | PC (part : string).
Fixpoint pname (ps : list promo) (x : string) : option string :=
  match ps with
  | [] => None
  | PN y :: r => if String.eqb x y then Some x else pname r x
  | PA y a :: r => if String.eqb x y then Some a else pname r x
  | PG p :: r => if prefix p x then Some x else pname r x
  | PS p :: r => if suffixb p x then Some x else pname r x
  | PC p :: r => if contains p x then Some x else pname r x
  end.
(* the name a subsystem's variable has in the group *)
Definition gname (s : string) (ps : list promo) (x : string) : string :=
  match pname ps x with Some n => n | None => (s ++ "." ++ x)%string end.

(* a subsystem: declared inputs and outputs (name, units, initial value as written in the source), promotions, and the relation
   between input and output values (in the declared units) that holds when it has been solved *)
Definition meta := (string * (string * string))%type.
Record sub := mkSub {
  sname : string;
  sins : list meta;
  souts : list meta;
  pin : list promo;
  pout : list promo;
  srel : state -> state -> Prop }.
Definition names (l : list meta) : list string := map fst l.
Definition unit_of (l : list meta) (x : string) : string := fst (lookup ("", "") l x).
Definition lin (s : sub) (w : state) : state := fun x k => w (gname (sname s) (pin s) x) k / ufac (unit_of (sins s) x).
Definition lout (s : sub) (w : state) : state := fun x k => w (gname (sname s) (pout s) x) k / ufac (unit_of (souts s) x).

(* a group: subsystems, connections (source, target), set_input_defaults names *)
Record group := mkGroup { subs : list sub; conns : list (string * string); defaults : list string }.
Definition in_names (s : sub) : list string := map (gname (sname s) (pin s)) (names (sins s)).
Definition out_names (s : sub) : list string := map (gname (sname s) (pout s)) (names (souts s)).
Definition g_outs (g : group) : list string := flat_map out_names (subs g).
Definition memb (x : string) (l : list string) : bool := existsb (String.eqb x) l.
Fixpoint dedup (l : list string) : list string :=
  match l with [] => [] | x :: r => if memb x r then dedup r else x :: dedup r end.
(* what the user (or the parent) has to supply: inputs that no output and no connection drives *)
Definition g_ins (g : group) : list string :=
  dedup (filter (fun x => negb (memb x (g_outs g) || memb x (map snd (conns g)))) (flat_map in_names (subs g))).

(* ---- a converged state of the group: inputs promoted to one name share its value, connected variables are equal (both after unit
   conversion), every subsystem's relation holds ---- *)
Definition solves (g : group) (w : state) : Prop :=
  (forall s, In s (subs g) -> srel s (lin s w) (lout s w)) /\
  (forall a b, In (a, b) (conns g) -> forall k, w b k = w a k).

(* ---- what OpenMDAO checks at setup ---- *)
Definition promo_ok (vs : list string) (p : promo) : Prop :=
  match p with
  | PN x | PA x _ => In x vs
  | PG pre => exists x, In x vs /\ prefix pre x = true
  | PS suf => exists x, In x vs /\ suffixb suf x = true
  | PC part => exists x, In x vs /\ contains part x = true
  end.
Record wired (g : group) : Prop := {
  w_outs : NoDup (g_outs g);                                        (* no two outputs share a name *)
  w_src : forall a b, In (a, b) (conns g) -> In a (g_outs g);        (* sources are outputs *)
  w_tgt : forall a b, In (a, b) (conns g) -> In b (flat_map in_names (subs g)) /\ ~ In b (g_outs g);  (* targets are undriven inputs *)
  w_one : NoDup (map snd (conns g));                                (* one source per target *)
  w_pin : forall s p, In s (subs g) -> In p (pin s) -> promo_ok (names (sins s)) p;
  w_pout : forall s p, In s (subs g) -> In p (pout s) -> promo_ok (names (souts s)) p }.
(* no free input has two declarations with different units or initial values, unless set_input_defaults decides *)
Definition unambiguous (g : group) : Prop :=
  forall x, In x (g_ins g) -> ~ In x (defaults g) ->
  forall s t y z uv uv', In s (subs g) -> In t (subs g) -> In (y, uv) (sins s) -> In (z, uv') (sins t) ->
    gname (sname s) (pin s) y = x -> gname (sname t) (pin t) z = x -> uv = uv'.

(* ---- a group used as a subsystem of another group (its variables are exchanged in SI) ---- *)
Definition plain (l : list string) : list meta := map (fun x => (x, ("", ""))) l.
Definition group_sub (name : string) (g : group) (pi po : list promo) : sub :=
  mkSub name (plain (g_ins g)) (plain (g_outs g)) pi po
    (fun li lo => exists w, solves g w /\ (forall x k, In x (g_ins g) -> w x k = li x k) /\ (forall x k, In x (g_outs g) -> w x k = lo x k)).

(* ---- a component of Spec_Comp used as a subsystem ---- *)
Definition vname (v : var) : string := match v with V s => s | I s _ => s | B u s => (u ++ ":" ++ s)%string | M s _ _ => s end.
(* matrices are not exchanged between subsystems *)
Definition vget (l : state) (v : var) : R := match v with V s => l s 0%nat | I s j => l s j | B u s => l (u ++ ":" ++ s)%string 0%nat | M _ _ _ => 0 end.
Definition expl_rel (c : comp) (li lo : state) : Prop := forall o, In o (outs c) -> vget lo o = compute c (vget li) (fun _ => 0) o.
(* implicit components: compute is the residual, the states are the outputs *)
Definition impl_env (c : comp) (li lo : state) : env := fun v => if in_dec var_eq_dec v (outs c) then vget lo v else vget li v.
Definition impl_rel (c : comp) (li lo : state) : Prop := forall o, In o (outs c) -> compute c (impl_env c li lo) (fun _ => 0) o = 0.
