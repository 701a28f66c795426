(* Model of the map lookup of pycycle/elements/compressor_map.py:174-179 and turbine_map.py:119-126: OpenMDAO's structured metamodel with the
   default options interp_method='slinear', extrap=False, on the shipped map data (maps/*.py, Data_Maps). *)
From Verif Require Export Spec_Comp Data_Maps.
Open Scope string_scope. Open Scope list_scope. Open Scope R_scope.

(* linear interpolation in one direction: the interval [g_i, g_i+1) that holds x (first and last interval extend, but a lookup outside of the
   grid is an error with extrap=False, see in_grid) *)
Fixpoint lin (g v : list R) (x : R) : R :=
  match g, v with
  | a :: ((b :: g') as gr), va :: ((vb :: _) as vr) =>
      match g' with
      | [] => va + (vb - va) * ((x - a) / (b - a))
      | _ :: _ => if Rlt_dec x b then va + (vb - va) * ((x - a) / (b - a)) else lin gr vr x
      end
  | _, _ => 0
  end.
(* OpenMDAO's InterpLinear interpolates recursively, one direction after the other *)
Definition slinear3 (g1 g2 g3 : list R) (t : list (list (list R))) (x y z : R) : R :=
  lin g1 (map (fun plane => lin g2 (map (fun row => lin g3 row z) plane) y) t) x.

(* the numbers of Data_Maps *)
Definition zR (z : Z) : R := IZR z / 10 ^ 4.
Definition p_name (p : string * string * Z * list Z) : string := fst (fst (fst p)).
Definition p_default (p : string * string * Z * list Z) : R := zR (snd (fst p)).
Definition p_grid (p : string * string * Z * list Z) : list R := map zR (snd p).
Definition o_name (o : string * string * list (list (list Z))) : string := fst (fst o).
Definition o_table (o : string * string * list (list (list Z))) : list (list (list R)) := map (map (map zR)) (snd o).
Definition in_grid (g : list R) (x : R) : Prop := exists a b, hd_error g = Some a /\ hd_error (rev g) = Some b /\ a <= x <= b.
(* the value a map lookup gives for output o: the three parameters in the order of param_data; None outside of the grid (OpenMDAO raises an error) *)
Definition lookup_map (m : mapZ) (o : string * string * list (list (list Z))) (x y z : R) (r : R) : Prop :=
  exists p1 p2 p3, mz_params m = [p1; p2; p3] /\ in_grid (p_grid p1) x /\ in_grid (p_grid p2) y /\ in_grid (p_grid p3) z /\
  r = slinear3 (p_grid p1) (p_grid p2) (p_grid p3) (o_table o) x y z.
