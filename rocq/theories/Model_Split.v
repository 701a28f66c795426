(* Model of pycycle/elements/splitter.py BPRcalc and bleed_out.py BleedCalcs. *)
From Verif Require Export Spec_Comp.
Open Scope string_scope. Open Scope list_scope. Open Scope R_scope.

(* splitter.py:26-29 *)
Definition bpr_compute (e old : env) : env :=
  let BPR := e (V "BPR") in
  let o := upd old (V "W1") (e (V "W_in") / (BPR + 1)) in
  upd o (V "W2") (e (V "W_in") - o (V "W1")).
(* splitter.py:31-38 *)
Definition bpr_partials (e : env) (J : jac) : jac :=
  let BPR := e (V "BPR") in
  let W := e (V "W_in") in
  let J := jset J (V "W1") (V "BPR") (- W / (BPR + 1) ^ 2) in
  let J := jset J (V "W1") (V "W_in") (1 / (BPR + 1)) in
  let J := jset J (V "W2") (V "BPR") (W / (BPR + 1) ^ 2) in
  jset J (V "W2") (V "W_in") (1 - 1 / (BPR + 1)).
(* splitter.py:15-23 *)
Definition bpr_calc : comp :=
  mkComp [V "W_in"; V "BPR"] [V "W1"; V "W2"] bpr_compute
    [([V "W1"; V "W2"], [V "W_in"; V "BPR"], 0)] bpr_partials.

(* bleed_out.py:32-40; bs = options['bleed_names'] *)
Definition bleed_compute (bs : list string) (e old : env) : env :=
  fold_left (fun o b =>
      let o := upd o (B b "stat:W") (e (V "W_in") * e (B b "frac_W")) in
      upd o (V "W_out") (o (V "W_out") - o (B b "stat:W")))
    bs (upd old (V "W_out") (e (V "W_in"))).
(* bleed_out.py:42-52 *)
Definition bleed_partials (bs : list string) (e : env) (J : jac) : jac :=
  fold_left (fun J b =>
      let J := jset J (V "W_out") (V "W_in") (J (V "W_out") (V "W_in") - e (B b "frac_W")) in
      let J := jset J (V "W_out") (B b "frac_W") (- e (V "W_in")) in
      let J := jset J (B b "stat:W") (V "W_in") (e (B b "frac_W")) in
      jset J (B b "stat:W") (B b "frac_W") (e (V "W_in")))
    bs (jset J (V "W_out") (V "W_in") 1).
(* bleed_out.py:19-30; the pattern '*:frac_W' matches every bleed's frac_W *)
Definition bleed_calcs (bs : list string) : comp :=
  mkComp (V "W_in" :: map (fun b => B b "frac_W") bs) (V "W_out" :: map (fun b => B b "stat:W") bs)
    (bleed_compute bs)
    (map (fun b => ([B b "stat:W"], [V "W_in"; B b "frac_W"], 0)) bs
     ++ [([V "W_out"], V "W_in" :: map (fun b => B b "frac_W") bs, 0)])
    (bleed_partials bs).
