(* C54 continued: the mixer. *)
From Coq Require Import FunctionalExtensionality Ascii Lia.
From Verif Require Import Lib_R Lib_Loop Spec_Wire Model_Thermo Proofs_Wire Prop_Static Prop_Thermo Model_Elem1 Model_Elem2 Proofs_Elem Proofs_Elem2 Proofs_Elem3 Proofs_ElemEx Prop_Station Prop_Station2 Prop_StationEx Proofs_OD Prop_OD Prop_OD2.
Open Scope string_scope. Open Scope list_scope. Open Scope R_scope.

(* default_des_od_conns of the mixer for the designed stream i; the static pressure is also visible under a plain name *)
Definition mix_conns (one : bool) : list (string * string) :=
  if one then [("Fl_I1_calc:stat:area", "Fl_I1_stat_calc.area"); ("Fl_I1_calc:stat:P", "Fl_I1_stat_calc.Ps")]
  else [("Fl_I2_calc:stat:area", "Fl_I2_stat_calc.area"); ("Fl_I2_calc:stat:P", "Fl_I2_stat_calc.Ps")].
(* a stream that has a positive velocity at the mixing plane *)
Definition entering (w : state) (fl tot : string) : Prop :=
  0 < val w (at_ fl "gamma") /\ 0 < val w (at_ fl "R") /\ 0 < val w (at_ fl "T") /\ val w (at_ fl "rho") <> 0 /\ val w (at_ fl "h") < val w (at_ tot "h") /\ val w (at_ tot "h") <> 0 /\ val w (at_ fl "area") <> 0.
Lemma conv_frame tp me one w :
  srel (group_sub "impulse_converge" (mix_conv tp me) [PG ""] [PG ""]) (lin (group_sub "impulse_converge" (mix_conv tp me) [PG ""] [PG ""]) w) (lout (group_sub "impulse_converge" (mix_conv tp me) [PG ""] [PG ""]) w) ->
  srel (group_sub "impulse_converge" (mix_conv tp me) [PG ""] [PG ""]) (lin (group_sub "impulse_converge" (mix_conv tp me) [PG ""] [PG ""]) (carry (mix_conns one) w))
    (lout (group_sub "impulse_converge" (mix_conv tp me) [PG ""] [PG ""]) (carry (mix_conns one) w)).
Proof.
  apply frame_group. destruct one, me; vm_compute; reflexivity.
Qed.
Theorem C54_mixer tp me a (one : bool) w : tp_local tp -> (if one then entering w "Fl_I1_calc:stat" "Fl_I1:tot" else entering w "Fl_I2_calc:stat" "Fl_I2:tot") ->
  solves (mixer tp me a one true) w -> solves (mixer tp me a one false) (carry (mix_conns one) w) /\ val w "Fl_O:stat:area" = val w "area".
Proof.
  intros L Hf [Hs Hc]. split.
  - split.
    + intros s H. destruct one; unfold mixer in H, Hs; cbn [subs app] in H, Hs; destruct H as [<-|[<-|[<-|H]]];
        try (apply frame; [av|apply Hs; insub]).
      * destruct Hf as (G1 & G2 & G3 & G4 & G5 & G6 & G7).
        apply (static_swap_Ps tp me L "Fl_I1_stat_calc" "Fl_I1_calc:stat" "Fl_I1_calc:stat" ([PA "composition" "Fl_I1:tot:composition"; PA "S" "Fl_I1:tot:S"; PA "ht" "Fl_I1:tot:h"; PA "W" "Fl_I1:stat:W"] ++ [PA "Ps" "Fl_I2:stat:P"]) _ [PG "Fl_I1_calc:stat"] _ w);
          [okn|shw|shw|eachc|eachc|eachc|intros ?; reflexivity|intros ?; reflexivity|repeat split; assumption|apply Hs; insub].
      * repeat destruct H as [<-|H]; try contradiction; try (apply frame; [av|apply Hs; insub]). apply conv_frame. apply Hs. insub.
      * destruct Hf as (G1 & G2 & G3 & G4 & G5 & G6 & G7).
        apply (static_swap_Ps tp me L "Fl_I2_stat_calc" "Fl_I2_calc:stat" "Fl_I2_calc:stat" ([PA "composition" "Fl_I2:tot:composition"; PA "S" "Fl_I2:tot:S"; PA "ht" "Fl_I2:tot:h"; PA "W" "Fl_I2:stat:W"] ++ [PA "Ps" "Fl_I1:stat:P"]) _ [PG "Fl_I2_calc:stat:"] _ w);
          [okn|shw|shw|eachc|eachc|eachc|intros ?; reflexivity|intros ?; reflexivity|repeat split; assumption|apply Hs; insub].
      * repeat destruct H as [<-|H]; try contradiction; try (apply frame; [av|apply Hs; insub]). apply conv_frame. apply Hs. insub.
    + destruct one; conn_out Hc.
  - assert (H : srel (group_sub "impulse_converge" (mix_conv tp me) [PG ""] [PG ""]) (lin (group_sub "impulse_converge" (mix_conv tp me) [PG ""] [PG ""]) w) (lout (group_sub "impulse_converge" (mix_conv tp me) [PG ""] [PG ""]) w)) by (destruct one; apply Hs; insub).
    destruct (group_open _ _ _ _ _ H) as (v & [Hv _] & Hi & Ho).
    destruct (sub_A tp me "out_stat" "Fl_O:stat" "Fl_O:stat" [PN "area"] [PG "Fl_O:stat:"] v ltac:(okn) ltac:(shw) (Hv _ ltac:(right; left; reflexivity))) as (_ & E & _).
    unfold val. pose proof (E 0%nat) as E0. change (v "Fl_O:stat:area" 0%nat = v "area" 0%nat) in E0.
    rewrite (Hi "area" 0%nat), (Ho "Fl_O:stat:area" 0%nat) in E0 by (apply memb_in; destruct me; vm_compute; reflexivity). exact E0.
Qed.
