(* Model of example_cycles/N+3ref/small_core_eff_balance.py, and of the equations of N3ref.py that close the high pressure compressor with it. *)
From Coq Require Import ZArith QArith.
From Verif Require Export Spec_Comp Model_Atm.
Open Scope string_scope. Open Scope list_scope.

(* small_core_eff_balance.py:7-14 *)
Definition core_sizes : list Q := [0; 205 # 1000; 63 # 100; 1; 15 # 10; 2; 25 # 10; 3; 4; 5; 30; 200]%Q.
Definition small_effs (tl : nat) : list Q :=
  match tl with
  | 1%nat => [0; 84 # 100; 88 # 100; 891 # 1000; 901 # 1000; 905 # 1000; 9075 # 10000; 909 # 1000; 912 # 1000; 914 # 1000; 915 # 1000; 915 # 1000]
  | 2%nat => [0; 855 # 1000; 900 # 1000; 912 # 1000; 917 # 1000; 920 # 1000; 922 # 1000; 9235 # 10000; 926 # 1000; 930 # 1000; 931 # 1000; 931 # 1000]
  | _ => [0; 82 # 100; 86 # 100; 871 # 1000; 881 # 1000; 885 # 1000; 8875 # 10000; 889 # 1000; 892 # 1000; 894 # 1000; 895 # 1000; 895 # 1000]
  end%Q.
(* lines 17-24: Akima(Wc_SE, EtaPoly_SEn) and its derivative; outside of the table scipy returns nan (see Model_Atm.pp), no theorem speaks about that range *)
Definition small_q (tl : nat) : list (Q * Q * Q) := akima (combine core_sizes (small_effs tl)).
Open Scope R_scope.
Definition small_curve (tl : nat) (CS : R) : R := interp (to_knots (small_q tl)) CS.
Definition small_slope (tl : nat) (CS : R) : R := interp_deriv (to_knots (small_q tl)) CS.
(* lines 59-66 *)
Definition cut : R := 530218862 / 100000000.
Definition large_poly (CS : R) : R := - (9025 / 10000000) * CS ^ 4 + 1816 / 100000 * CS ^ 3 - 1363 / 10000 * CS ^ 2 + 4549 / 10000 * CS + 33620 / 100000.
Definition large_curve (tl : nat) (CS : R) : R :=
  let c := if Rlt_dec CS cut then large_poly CS else 91 / 100 in
  match tl with 1%nat => c + 2 / 100 | 2%nat => c + 4 / 100 | _ => c end.
(* lines 83-86 *)
Definition large_slope (CS : R) : R := if Rlt_dec CS cut then - (361 / 100000) * CS ^ 3 + 5448 / 100000 * CS ^ 2 - 2726 / 10000 * CS + 4549 / 10000 else 0.
Inductive engine := large | small.
Definition core_curve (ty : engine) (tl : nat) : R -> R := match ty with large => large_curve tl | small => small_curve tl end.
Definition core_slope (ty : engine) (tl : nat) : R -> R := match ty with large => large_slope | small => small_slope tl end.
(* lines 26-89 SmallCoreEffBalance; the option tech_level is 0, 1 or 2 *)
Definition core_eff (ty : engine) (tl : nat) : comp :=
  mkComp [V "CS"; V "eta_p"; V "eta_a"] [V "eta_a"]
    (fun e old => upd old (V "eta_a") (e (V "eta_p") - core_curve ty tl (e (V "CS"))))
    [([V "eta_a"], [V "CS"; V "eta_p"], 0)]
    (fun e J => let J := jset J (V "eta_a") (V "CS") (- core_slope ty tl (e (V "CS"))) in jset J (V "eta_a") (V "eta_p") 1).
(* example_cycles/N+3ref/N3ref.py:158-162 hpc_CS: CS = Win*(power(Tout/518.67, 0.5)/(Pout/14.696)), the arguments in lbm/s, degR and psi, the result in lbm/s *)
Definition core_size (Win Tout Pout : R) : R := Win * (rpow (Tout / (51867 / 100)) (1 / 2) / (Pout / (14696 / 1000))).
(* N3ref.py:175-179 opr_calc: OPR_simple = FPR*LPCPR*HPCPR *)
Definition opr_simple (FPR LPCPR HPCPR : R) : R := FPR * LPCPR * HPCPR.
