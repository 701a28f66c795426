(* Model of pycycle/elements/US1976.py: the standard atmosphere table, scipy's Akima1DInterpolator as used there, USatm1976Comp. *)
From Coq Require Import ZArith QArith Qabs Qreals.
From Verif Require Export Spec_Comp Data_Atm.
Open Scope string_scope. Open Scope list_scope.

(* ---- piecewise cubics (scipy's PPoly) ---- *)
Section Cubic.
Open Scope R_scope.
(* a knot: abscissa, value, slope *)
Definition knot := (R * R * R)%type.
Definition kx (k : knot) : R := fst (fst k).
Definition ky (k : knot) : R := snd (fst k).
Definition km (k : knot) : R := snd k.
(* scipy CubicHermiteSpline (base class of Akima1DInterpolator): coefficients of (x - x0)^3 .. (x - x0)^0 *)
Record cubic := mkCubic { c3 : R; c2 : R; c1 : R; c0 : R }.
Definition coeffs (a b : knot) : cubic :=
  let h := kx b - kx a in let s := (ky b - ky a) / h in let t := (km a + km b - 2 * s) / h in
  mkCubic (t / h) ((s - km a) / h - t) (km a) (ky a).
Definition cub (c : cubic) (u : R) : R := c3 c * u ^ 3 + c2 c * u ^ 2 + c1 c * u + c0 c.
(* PPoly.derivative(1): coefficientwise *)
Definition dcub (c : cubic) : cubic := mkCubic 0 (3 * c3 c) (2 * c2 c) (c1 c).
(* PPoly.__call__: the interval [x_i, x_i+1) that holds x, the last interval closed. Simplification: outside of the table scipy returns nan,
   the model goes on with the first or last cubic; no theorem speaks about that range. f maps the coefficients (identity or derivative) *)
Fixpoint pp (f : cubic -> cubic) (ks : list knot) (x : R) : R :=
  match ks with
  | a :: r => match r with
    | b :: r' => match r' with
      | [] => cub (f (coeffs a b)) (x - kx a)
      | _ :: _ => if Rlt_dec x (kx b) then cub (f (coeffs a b)) (x - kx a) else pp f r x
      end
    | [] => 0
    end
  | [] => 0
  end.
Definition interp (ks : list knot) : R -> R := pp (fun c => c) ks.                  (* Akima(x, y) *)
Definition interp_deriv (ks : list knot) : R -> R := pp dcub ks.                    (* .derivative(1) *)
Definition interp_deriv2 (ks : list knot) : R -> R := pp (fun c => dcub (dcub c)) ks.  (* .derivative(2) *)
End Cubic.

(* ---- Akima's slopes (scipy Akima1DInterpolator.__init__), in exact rational arithmetic ---- *)
Section Akima.
Open Scope Q_scope.
Fixpoint slopes (ps : list (Q * Q)) : list Q :=
  match ps with p :: r => match r with q :: _ => Qred ((snd q - snd p) / (fst q - fst p)) :: slopes r | [] => [] end | [] => [] end.
(* two more slopes on each side: m[1] = 2 m[2] - m[3], m[0] = 2 m[1] - m[2] *)
Definition pad (m : list Q) : list Q :=
  match m with a :: b :: _ => let x := Qred (2 * a - b) in Qred (2 * x - a) :: x :: m | _ => m end.
Definition extended (m : list Q) : list Q := rev (pad (rev (pad m))).
Definition Qmaxq (a b : Q) : Q := if Qle_bool a b then b else a.
Fixpoint windows (m : list Q) : list (Q * Q * Q * Q) :=
  match m with
  | a :: r => match r with b :: c :: d :: _ => (a, b, c, d) :: windows r | _ => [] end
  | [] => []
  end.
Definition f12 (w : Q * Q * Q * Q) : Q := let '(a, b, c, d) := w in Qabs (d - c) + Qabs (b - a).
(* t = (f1 m[i+1] + f2 m[i+2]) / f12 where f12 > 1e-9 max(f12), else the mean of m[i] and m[i+3] *)
Definition akima_slope (mx : Q) (w : Q * Q * Q * Q) : Q := let '(a, b, c, d) := w in
  if Qle_bool (f12 w) ((1 # 1000000000) * mx) then Qred ((1 # 2) * (d + a)) else Qred ((Qabs (d - c) * b + Qabs (b - a) * c) / f12 w).
Definition akima (ps : list (Q * Q)) : list (Q * Q * Q) :=
  let ws := windows (extended (slopes ps)) in
  let mx := fold_left Qmaxq (map f12 ws) 0 in
  combine ps (map (akima_slope mx) ws).
End Akima.

(* ---- US1976.py:12-65 and 67-75: the table and its interpolants ---- *)
Definition table (den : positive) (ys : list Z) : list (Q * Q) := combine (map (fun a => (a # 1)%Q) atm_alt_z) (map (fun y => (y # den)%Q) ys).
Definition to_knots (l : list (Q * Q * Q)) : list knot := map (fun k => (Q2R (fst (fst k)), Q2R (snd (fst k)), Q2R (snd k))) l.
Definition T_q : list (Q * Q * Q) := akima (table 1000 atm_T_z).
Definition P_q : list (Q * Q * Q) := akima (table 10000000 atm_P_z).
Definition rho_q : list (Q * Q * Q) := akima (table 100000000000 atm_rho_z).
Definition T_knots : list knot := to_knots T_q.
Definition P_knots : list knot := to_knots P_q.
Definition rho_knots : list knot := to_knots rho_q.

(* US1976.py:78-105 USatm1976Comp *)
Open Scope R_scope.
Definition usatm_compute (e old : env) : env :=
  let o := upd old (V "Ts") (interp T_knots (e (V "alt"))) in
  let o := upd o (V "Ps") (interp P_knots (e (V "alt"))) in
  let o := upd o (V "rhos") (interp rho_knots (e (V "alt"))) in
  upd o (V "drhos_dalt") (interp_deriv rho_knots (e (V "alt"))).
Definition usatm_partials (e : env) (J : jac) : jac :=
  let J := jset J (V "Ts") (V "alt") (interp_deriv T_knots (e (V "alt"))) in
  let J := jset J (V "Ps") (V "alt") (interp_deriv P_knots (e (V "alt"))) in
  let J := jset J (V "rhos") (V "alt") (interp_deriv rho_knots (e (V "alt"))) in
  jset J (V "drhos_dalt") (V "alt") (interp_deriv2 rho_knots (e (V "alt"))).
Definition usatm : comp :=
  mkComp [V "alt"] [V "Ts"; V "Ps"; V "rhos"; V "drhos_dalt"] usatm_compute
    [([V "Ts"; V "Ps"; V "rhos"; V "drhos_dalt"], [V "alt"], 0)] usatm_partials.
