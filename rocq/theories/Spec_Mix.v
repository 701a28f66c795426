(* Gas streams whose composition is a vector b over a list of chemical elements: amount of one element, mass per unit of
   composition, and the mass fraction of an element. *)
From Verif Require Export Spec_Py Spec_Comp.
Open Scope string_scope. Open Scope list_scope. Open Scope R_scope.

(* entry of b that belongs to element x (0 if x does not occur) *)
Definition amount (els : list string) (b : nat -> R) (x : string) : R :=
  lsum (fun i => if string_dec (nth i els "") x then b i else 0) (seq 0 (List.length els)).
(* sum over all entries of amount times atomic weight *)
Definition mass (w : string -> R) (els : list string) (b : nat -> R) : R :=
  lsum (fun i => b i * w (nth i els "")) (seq 0 (List.length els)).
(* mass of element x in 1 kg of the stream *)
Definition mass_fraction (w : string -> R) (els : list string) (b : nat -> R) (x : string) : R := amount els b x * w x / mass w els b.
(* a composition given as a dictionary element -> amount *)
Definition dict_fraction (w : string -> R) (d : dict R) (x : string) : R := mass_fraction w (dkeys d) (fun i => nth i (dvals d) 0) x.
Definition dict_mass (w : string -> R) (d : dict R) : R := mass w (dkeys d) (fun i => nth i (dvals d) 0).
