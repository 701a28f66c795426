(* Model of pycycle/constants.py (DeprecatedDict), thermo/unit_comps.py (UnitCompBase) and passthrough.py (PassThrough). *)
From Verif Require Export Lib_Py Spec_Comp.
Open Scope string_scope. Open Scope list_scope.

(* ---------- constants.py:6-21 DeprecatedDict, in a process with the warnings module's filter list ---------- *)
(* what a filter does with a matching warning. Simplification: only filters that match DeprecationWarning, from every module, are kept, and
   the actions that show a warning at most once per place are outside of the model *)
Inductive action := Always | Ignore | Raise.
(* what became of a warning *)
Inductive fate := Shown | Dropped | Raised.
Inductive origin := Dict (i : nat) | Other.
Record obj := mkObj { old_name : string; new_name : string; has_warned : bool; entries : dict R }.
Record world := mkWorld { objs : list obj; filters : list action; log : list (origin * string * fate) }.

(* warnings.simplefilter: insert in front *)
Definition simplefilter (a : action) (w : world) : world := mkWorld (objs w) (a :: filters w) (log w).
(* warnings.warn: the first filter decides; a DeprecationWarning that matches no filter is dropped here (the interpreter's default) *)
Definition fate_of (fs : list action) : fate := match fs with Always :: _ => Shown | Raise :: _ => Raised | _ => Dropped end.
Definition warn (o : origin) (msg : string) (w : world) : world := mkWorld (objs w) (filters w) (log w ++ [(o, msg, fate_of (filters w))]).
Definition message (x : obj) : string :=
  ("Deprecation warning: `" ++ old_name x ++ "` will be replaced by `" ++ new_name x ++ "` in pyCycle 4.0")%string.
Fixpoint set_nth {A} (l : list A) (i : nat) (a : A) : list A :=
  match l, i with [], _ => [] | _ :: r, O => a :: r | b :: r, S j => b :: set_nth r j a end.
Definition set_obj (i : nat) (x : obj) (w : world) : world := mkWorld (set_nth (objs w) i x) (filters w) (log w).

(* what a program can do; the methods that DeprecatedDict does not override are python's dict methods *)
Inductive op :=
| New (old new : string) (d : dict R)     (* DeprecatedDict(old, new, d) *)
| GetItem (i : nat) (k : string)          (* x[k] *)
| Get (i : nat) (k : string)              (* x.get(k) *)
| Has (i : nat) (k : string)              (* k in x *)
| Keys (i : nat)                          (* x.keys(), iteration *)
| SetItem (i : nat) (k : string) (v : R)  (* x[k] = v *)
| Filter (a : action)                     (* the user's own warnings.simplefilter *)
| Warn (msg : string).                    (* a DeprecationWarning issued by other code *)
Inductive result := RVal (v : R) | RNone | RBool (b : bool) | RKeys (l : list string) | RUnit | RKeyError | RNoObject.
Definition item (d : dict R) (k : string) : result := match dget d k with Some v => RVal v | None => RKeyError end.

(* constants.py:14-20 *)
Definition getitem (i : nat) (k : string) (x : obj) (w : world) : world * result :=
  let w' := if has_warned x then w else
    simplefilter Ignore (warn (Dict i) (message x) (simplefilter Always (set_obj i (mkObj (old_name x) (new_name x) true (entries x)) w))) in
  (w', item (entries x) k).
Definition on_obj (w : world) (i : nat) (f : obj -> world * result) : world * result :=
  match nth_error (objs w) i with Some x => f x | None => (w, RNoObject) end.
Definition step (w : world) (o : op) : world * result :=
  match o with
  | New a b d => (mkWorld (objs w ++ [mkObj a b false d]) (filters w) (log w), RUnit)       (* constants.py:8-12 *)
  | GetItem i k => on_obj w i (fun x => getitem i k x w)
  | Get i k => on_obj w i (fun x => (w, match dget (entries x) k with Some v => RVal v | None => RNone end))
  | Has i k => on_obj w i (fun x => (w, RBool (dmem (entries x) k)))
  | Keys i => on_obj w i (fun x => (w, RKeys (dkeys (entries x))))
  | SetItem i k v => on_obj w i (fun x => (set_obj i (mkObj (old_name x) (new_name x) (has_warned x) (dset (entries x) k v)) w, RUnit))
  | Filter a => (simplefilter a w, RUnit)
  | Warn m => (warn Other m w, RUnit)
  end.
Fixpoint exec (w : world) (l : list op) : world * list result :=
  match l with [] => (w, []) | o :: r => let '(w1, x) := step w o in let '(w2, xs) := exec w1 r in (w2, x :: xs) end.

(* ---------- unit_comps.py:8-45 and passthrough.py: components that copy inputs to outputs ---------- *)
(* `outputs._data[:] = inputs._data` : the k-th number of the output vector becomes the k-th number of the input vector; both vectors hold
   the variables in declaration order, each variable with `size` numbers *)
Definition slots (l : list (string * nat)) : list var := flat_map (fun x => map (I (fst x)) (seq 0 (snd x))) l.
Definition copy_data (os is : list var) (e old : env) : env := fold_left (fun acc oi => upd acc (fst oi) (e (snd oi))) (combine os is) old.
(* declare_partials(of, wrt, val=ones(size), rows=arange(size), cols=arange(size)) *)
Definition diag (o i : string) (n : nat) : list decl := map (fun k => ([I o k], [I i k], 1%R)) (seq 0 n).
(* unit_comps.py:14-45; compute_partials is not overridden *)
Definition unit_comp (fl : string) (l : list (string * nat)) : comp :=
  let l' := map (fun x => ((fl ++ ":" ++ fst x)%string, snd x)) l in
  mkComp (slots l) (slots l') (copy_data (slots l') (slots l))
    (flat_map (fun p => diag (fst (fst p)) (fst (snd p)) (snd (snd p))) (combine l' l)) (fun _ J => J).
(* passthrough.py:12-45 *)
Definition pass_through (i_var o_var : string) (size : nat) : comp :=
  mkComp (slots [(i_var, size)]) (slots [(o_var, size)])
    (fun e old => fold_left (fun acc k => upd acc (I o_var k) (e (I i_var k))) (seq 0 size) old)
    (diag o_var i_var size) (fun _ J => J).
