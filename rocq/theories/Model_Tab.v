(* Model of pycycle/thermo/tabular/tabular_thermo.py: SetTotalTP, the property calculation of the TABULAR method. One OpenMDAO structured metamodel
   (MetaModelStructuredComp, method '3D-slinear' with one composition parameter, 'slinear' otherwise: multilinear interpolation in either case,
   extrapolate=True) whose inputs are the composition parameters in sorted order, then P, then T. Other values of the option interp_method are not modelled. *)
From Verif Require Export Model_Maps Model_Species.
Open Scope string_scope. Open Scope list_scope. Open Scope R_scope.

(* spec: the training data of the inputs (one grid per input name) and of the outputs, arrays indexed by one grid index per input *)
Record tab_spec := mkTabSpec { tb_grid : string -> list R; tb_val : string -> list nat -> R }.
(* multilinear interpolation, one direction after the other; beyond the grid the outermost interval is extended (lin, Model_Maps) *)
Fixpoint interpN (gs : list (list R)) (t : list nat -> R) (xs : list R) : R :=
  match gs, xs with
  | g :: gs', x :: xs' => lin g (map (fun i => interpN gs' (fun ix => t (i :: ix)) xs') (seq 0 (List.length g))) x
  | _, _ => t []
  end.
(* tabular_thermo.py:22,29-35: sorted(composition.keys()), then P and T *)
Definition tab_axes (keys : list string) : list string := sorted keys ++ ["P"; "T"].
(* tabular_thermo.py:40-46 *)
Definition tab_outputs : list string := ["h"; "S"; "gamma"; "Cp"; "Cv"; "rho"; "R"].
(* tabular_thermo.py:29-46: entry i of the composition vector is the i-th parameter; T in degK, P in Pa, the outputs in the units SetTotalTP declares *)
Definition tab_point (keys : list string) (T P : R) (c : nat -> R) : list R := map c (seq 0 (List.length keys)) ++ [P; T].
Definition tab_tp (sp : tab_spec) (keys : list string) (T P : R) (c : nat -> R) (p : string -> R) : Prop :=
  forall x, In x tab_outputs -> p x = interpN (map (tb_grid sp) (tab_axes keys)) (tb_val sp x) (tab_point keys T P c).
