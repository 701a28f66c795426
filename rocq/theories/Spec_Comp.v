(* Numeric components: named real variables, components as the assignments their
   python methods perform, and what "the declared derivatives are exact" means. *)
From Coq Require Export Reals List String Lra.
Export ListNotations.
Open Scope list_scope.
Open Scope R_scope.

(* OpenMDAO variable names. V "W_out" is the scalar variable 'W_out'; I "n" j is entry j
   of the vector variable 'n'; B b "frac_W" is the scalar whose name is built from a
   user supplied name b ('{b}:frac_W'); M "aij" i j is entry (i,j) of a matrix. *)
Inductive var :=
| V (name : string)
| I (name : string) (j : nat)
| B (user name : string)
| M (name : string) (i j : nat).

Definition var_eq_dec : forall x y : var, {x = y} + {x <> y}.
Proof. decide equality; try apply string_dec; apply PeanoNat.Nat.eq_dec. Defined.

Definition env := var -> R.
Definition upd (e : env) (x : var) (v : R) : env :=
  fun y => if var_eq_dec x y then v else e y.

(* a Jacobian: jac o i is the stored value of d o / d i *)
Definition jac := var -> var -> R.
Definition jset (J : jac) (o i : var) (v : R) : jac :=
  fun o' i' => if var_eq_dec o o' then if var_eq_dec i i' then v else J o' i' else J o' i'.

(* one declare_partials(of, wrt, val) call; val = None is stored as 0 *)
Definition decl := (list var * list var * R)%type.
Definition declares (ds : list decl) (o i : var) : Prop :=
  exists os is v, In (os, is, v) ds /\ In o os /\ In i is.
Definition jinit (ds : list decl) : jac := fun o i =>
  fold_left (fun acc d => let '(os, is, v) := d in
    if in_dec var_eq_dec o os then if in_dec var_eq_dec i is then v else acc else acc) ds 0.

(* compute e old : outputs written over the old output values; partials e J : entries
   written over the stored Jacobian J. For implicit components e holds inputs and states,
   compute is apply_nonlinear and outs are the residuals. *)
Record comp := mkComp {
  ins : list var;
  outs : list var;
  compute : env -> env -> env;
  decls : list decl;
  partials : env -> jac -> jac }.

(* the Jacobian held by the framework after linearising at the points of hist, then at e *)
Definition jac_after (c : comp) (hist : list env) (e : env) : jac :=
  partials c e (fold_left (fun J e' => partials c e' J) hist (jinit (decls c))).

(* For every point e in dom, after any previous linearisations, for every output o and
   every input i (declared or not): the stored entry is the derivative of the computed
   output with respect to that input. *)
Definition jac_exact (c : comp) (dom : env -> Prop) : Prop :=
  forall hist e old o i, dom e -> In o (outs c) -> In i (ins c) ->
    derivable_pt_lim (fun t => compute c (upd e i t) old o) (e i) (jac_after c hist e o i).

(* the same, only for the (output, input) pairs selected by sel *)
Definition jac_exact_on (c : comp) (dom : env -> Prop) (sel : var -> var -> Prop) : Prop :=
  forall hist e old o i, dom e -> In o (outs c) -> In i (ins c) -> sel o i ->
    derivable_pt_lim (fun t => compute c (upd e i t) old o) (e i) (jac_after c hist e o i).

(* compute_partials never writes an entry that was not declared (OpenMDAO rejects that) *)
Definition jac_declared (c : comp) : Prop :=
  forall e J o i, ~ declares (decls c) o i -> partials c e J o i = J o i.

(* every output is written, and what is written depends on nothing but the inputs *)
Definition writes_all (c : comp) : Prop :=
  forall e e' old old' o, In o (outs c) -> (forall i, In i (ins c) -> e i = e' i) ->
    compute c e old o = compute c e' old' o.

Definition comp_ok (c : comp) (dom : env -> Prop) : Prop :=
  jac_exact c dom /\ jac_declared c /\ writes_all c.

(* finite sums *)
Fixpoint lsum {A} (f : A -> R) (l : list A) : R :=
  match l with [] => 0 | a :: r => f a + lsum f r end.

(* python/numpy x**y for x >= 0 and real exponent y (0**0 = 1, 0**y = 0 for y > 0;
   0**y for y < 0 and negative x are outside of every statement's domain) *)
Definition rpow (x y : R) : R :=
  if Req_EM_T x 0 then (if Req_EM_T y 0 then 1 else 0) else Rpower x y.
