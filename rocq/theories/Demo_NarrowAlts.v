(** The alternatives of one answer under a filter and under narrower ones. *)
From Coq Require Import String List NArith ZArith Bool Arith Lia.
From Verif Require Import Base F32 M_Types M_Engine M_Det M_Lookup M_Feat M_Prob M_Features M_Filler M_Fs M_Json M_Load
  S_Base S_Load S_Match S_Made S_Seeds S_Narrow P_Base Demo Demo_Prob Demo_Load Demo_Home Demo_Made Demo_Intents Demo_Best.
Import ListNotations.
Local Open Scope string_scope.
Local Open Scope list_scope.
Local Open Scope nat_scope.

Definition only_light : option (list str) := Some [$"lightOn"].
Definition only_temp : option (list str) := Some [$"setTemp"].
Definition no_answer : ParseResult := mkPR [] (mkIR None f0) [] [].
Definition bright_with (w : option (list str)) : ParseResult :=
  get_ok no_answer (parse_with_alternatives demo_ext id_order id_order home_engine bright w None 3 0).
Lemma bright_light : parse_with_alternatives demo_ext id_order id_order home_engine bright only_light None 3 0 = Ok (bright_with only_light).
Proof. apply get_ok_eq. vm_compute. reflexivity. Qed.
Lemma bright_temp : parse_with_alternatives demo_ext id_order id_order home_engine bright only_temp None 3 0 = Ok (bright_with only_temp).
Proof. apply get_ok_eq. vm_compute. reflexivity. Qed.
Definition alternatives_in (r : ParseResult) : list (option str) := map (fun a => ir_name (al_intent a)) (ps_alternatives r).
Lemma bright_alternatives : alternatives_in bright_all = [Some $"setTemp"; None] /\
  alternatives_in (bright_with only_light) = [None] /\ alternatives_in (bright_with only_temp) = [None].
Proof. repeat split; vm_compute; reflexivity. Qed.
Lemma bright_first : first_listed None (listed home_engine bright) (hd (mkIR None f0) (listed home_engine bright)) /\
  ir_name (hd (mkIR None f0) (listed home_engine bright)) = Some $"lightOn".
Proof.
  assert (E : ir_name (hd (mkIR None f0) (listed home_engine bright)) = Some $"lightOn") by (vm_compute; reflexivity).
  split; [|exact E]. exists [], (tl (listed home_engine bright)). split; [|split].
  - assert (Z : length (listed home_engine bright) <> 0) by (vm_compute; discriminate).
    destruct (listed home_engine bright); [exfalso; apply Z; reflexivity|reflexivity].
  - unfold may_list. rewrite E. exact Logic.I.
  - intros a [].
Qed.
