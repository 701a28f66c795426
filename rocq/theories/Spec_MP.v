(* Reading of an MPCycle API history: only calls that did not raise count. *)
From Verif Require Export Spec_Py.
From Verif Require Import Model_MP.
Open Scope list_scope.

Definition history V := list (mp_op V * option exn).

Definition succeeded {V} (h : history V) : list (mp_op V) :=
  flat_map (fun oe => match snd oe with None => [fst oe] | Some _ => [] end) h.

(* off-design points in the order they were added *)
Definition od_points {V} (h : history V) : list (string * point) :=
  flat_map (fun o => match o with AddPnt n p => match p_design p with PyFalse => [(n, p)] | _ => [] end | _ => [] end) (succeeded h).
Definition design_points {V} (h : history V) : list (string * point) :=
  flat_map (fun o => match o with AddPnt n p => match p_design p with PyTrue => [(n, p)] | _ => [] end | _ => [] end) (succeeded h).
Definition des_od_conns {V} (h : history V) : list (string * string) :=
  flat_map (fun o => match o with ConnectDesOd s t => [(s, t)] | _ => [] end) (succeeded h).
Definition params {V} (h : history V) : list (string * V) :=
  flat_map (fun o => match o with AddParam n v => [(n, v)] | _ => [] end) (succeeded h).
Definition last_skip {V} (h : history V) : option skip_arg :=
  fold_left (fun acc o => match o with UseDefault s => Some s | _ => acc end) (succeeded h) None.

Definition connections {V} (acts : list (action V)) : list (string * string) :=
  flat_map (fun a => match a with Connect s t => [(s, t)] | _ => [] end) acts.
Definition promotions {V} (acts : list (action V)) : list (string * string) :=
  flat_map (fun a => match a with Promote p v => [(p, v)] | _ => [] end) acts.
Definition defaults {V} (acts : list (action V)) : list (string * V) :=
  flat_map (fun a => match a with SetDefault p v => [(p, v)] | _ => [] end) acts.
