(* Small vocabulary for the Python data structures used by the models:
   insertion-ordered dictionaries keyed by strings, string splitting, and
   results that are either a Python exception or a value. *)
From Coq Require Export List String Ascii Bool Arith Lia.
Export ListNotations.
Open Scope string_scope.

(* Python exceptions that the modelled code can raise *)
Inductive exn : Type :=
| KeyError
| AttributeError
| RuntimeError
| ValueError
| NameError
| IndexError
| NotImplementedError
| UserError.            (* whatever a user supplied callback raised *)

Inductive res (A : Type) : Type :=
| Ok (a : A)
| Err (e : exn).
Arguments Ok {A} a.
Arguments Err {A} e.

(* Python dict: association list in insertion order, at most one entry/key *)
Definition dict (A : Type) := list (string * A).

Fixpoint dget {A} (d : dict A) (k : string) : option A :=
  match d with
  | [] => None
  | (k', v) :: r => if String.eqb k k' then Some v else dget r k
  end.

(* d[k] = v : an existing key keeps its position, a new key is appended *)
Fixpoint dset {A} (d : dict A) (k : string) (v : A) : dict A :=
  match d with
  | [] => [(k, v)]
  | (k', v') :: r => if String.eqb k k' then (k', v) :: r else (k', v') :: dset r k v
  end.

Definition dkeys {A} (d : dict A) : list string := List.map fst d.
Definition dvals {A} (d : dict A) : list A := List.map snd d.
Definition dmem {A} (d : dict A) (k : string) : bool :=
  match dget d k with Some _ => true | None => false end.

(* d.update(d2) *)
Definition dupdate {A} (d d2 : dict A) : dict A :=
  fold_left (fun acc kv => dset acc (fst kv) (snd kv)) d2 d.

(* well formed dict: no duplicate key *)
Definition dwf {A} (d : dict A) : Prop := NoDup (dkeys d).

Definition str_in (x : string) (l : list string) : bool :=
  existsb (String.eqb x) l.

(* s.split('.') : always at least one piece *)
Fixpoint split_on (sep : ascii) (s : string) : list string :=
  match s with
  | EmptyString => [""]
  | String c r =>
      if Ascii.eqb c sep then "" :: split_on sep r
      else match split_on sep r with
           | [] => [String c ""]            (* unreachable *)
           | p :: ps => String c p :: ps
           end
  end.

(* ''.join(l) *)
Definition join_empty (l : list string) : string := String.concat "" l.
(* '.'.join(l) *)
Definition join_dot (l : list string) : string := String.concat "." l.

(* substring test, Python's  x in s  for two strings *)
Fixpoint is_prefix (x s : string) : bool :=
  match x, s with
  | EmptyString, _ => true
  | String a x', String b s' => Ascii.eqb a b && is_prefix x' s'
  | _, EmptyString => false
  end.
Fixpoint is_substr (x s : string) : bool :=
  is_prefix x s ||
  match s with EmptyString => false | String _ s' => is_substr x s' end.

(* no occurrence of character c *)
Fixpoint no_char (c : ascii) (s : string) : bool :=
  match s with
  | EmptyString => true
  | String a r => negb (Ascii.eqb a c) && no_char c r
  end.
