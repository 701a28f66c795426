(* Element level reading of a cycle description (a list of API calls):
   used to state what Cycle.setup must achieve without mentioning the graph. *)
From Verif Require Export Spec_Py.
From Verif Require Import Model_Graph.
From Coq Require Export Relations.
Open Scope list_scope.

(* "elem.port" *)
Definition path (e p : string) : string := (e ++ "." ++ p)%string.

(* names of the Elements added to the cycle, in order *)
Definition elements_of (ops : list build_op) : list string :=
  flat_map (fun o => match o with AddSubsystem n true => [n] | _ => [] end) ops.

(* pyc_connect_flow('a.p', 'b.q') was called *)
Definition connected (ops : list build_op) (a p b q : string) : Prop :=
  In (ConnectFlow (path a p) (path b q)) ops.

(* some port of a feeds some port of b *)
Definition flows (ops : list build_op) (a b : string) : Prop :=
  exists p q, connected ops a p b q.

(* names accepted by OpenMDAO: no dot inside a subsystem or port name; every
   connection has the form  'elem.port' -> 'elem.port'; a port is not used both
   as a source and as a target *)
Record wf_ops (ops : list build_op) : Prop := {
  wf_names : forall n b, In (AddSubsystem n b) ops -> no_char "." n = true;
  wf_unique : NoDup (elements_of ops);
  wf_conn : forall s t, In (ConnectFlow s t) ops ->
      exists a p b q, s = path a p /\ t = path b q /\
        no_char "." a = true /\ no_char "." p = true /\ no_char "." b = true /\ no_char "." q = true;
  wf_dir : forall s t s' t', In (ConnectFlow s t) ops -> In (ConnectFlow s' t') ops -> s <> t' }.

(* no directed loop of elements *)
Definition acyclic (ops : list build_op) : Prop := forall a, ~ clos_trans _ (flows ops) a a.

(* element n, and everything upstream of it, is free of loops *)
Definition upstream_acyclic (ops : list build_op) (n : string) : Prop :=
  forall a, clos_refl_trans _ (flows ops) a n -> ~ clos_trans _ (flows ops) a a.

(* x occurs strictly before y in l *)
Definition before {A} (l : list A) (x y : A) : Prop :=
  exists l1 l2 l3, l = l1 ++ x :: l2 ++ y :: l3.
