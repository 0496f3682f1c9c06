(** C84: the alternatives of an answer under a narrower filter.
    [Print Assumptions] beneath each theorem lists what it rests on. *)
From Coq Require Import String List NArith ZArith.
From Verif Require Import Base F32 M_Types M_Engine M_Det M_Lookup M_Feat M_Prob M_Features M_Filler M_Fs M_Json M_Load
  S_Base S_Load S_Match S_Made S_Seeds S_Narrow P_NarrowAlts Demo Demo_Prob Demo_Load Demo_Home Demo_Made Demo_Intents
  Demo_Best Demo_NarrowAlts.
Import ListNotations.
Local Open Scope string_scope.
Local Open Scope list_scope.
Local Open Scope nat_scope.

(** ** C84 *)
(** The alternatives that a narrower filter allows are still alternatives under this filter, if it
    allows the most confident intent of all those that the wider filter allows. *)
Theorem C84_alternatives_kept : forall x o1 o1' o2 en input w b w' b' wl wl' k n r r' l e,
  get_intents_whitelist o1 en w b = Ok wl -> get_intents_whitelist o1' en w' b' = Ok wl' -> narrower wl' wl ->
  get_intents o2 en input = Ok l -> first_listed wl l e -> may_list wl' e ->
  parse_with_alternatives x o1 o2 en input w b k n = Ok r -> parse_with_alternatives x o1' o2 en input w' b' k n = Ok r' ->
  forall a, In a (ps_alternatives r) -> may_list wl' (al_intent a) -> In a (ps_alternatives r').
Proof. exact alternatives_kept. Qed.
Print Assumptions C84_alternatives_kept.

(** If it forbids this intent, they are still alternatives but the first one of them, which has
    become the most confident intent allowed. *)
Theorem C84_alternatives_but_first : forall x o1 o1' o2 en input w b w' b' wl wl' k n r r' l e,
  get_intents_whitelist o1 en w b = Ok wl -> get_intents_whitelist o1' en w' b' = Ok wl' -> narrower wl' wl ->
  get_intents o2 en input = Ok l -> first_listed wl l e -> ~ may_list wl' e ->
  parse_with_alternatives x o1 o2 en input w b k n = Ok r -> parse_with_alternatives x o1' o2 en input w' b' k n = Ok r' ->
  forall pre a post, ps_alternatives r = pre ++ a :: post -> may_list wl' (al_intent a) ->
  (In a (ps_alternatives r') \/ first_listed wl' l (al_intent a)) /\
  ((exists a0, In a0 pre /\ may_list wl' (al_intent a0)) -> In a (ps_alternatives r')).
Proof. exact alternatives_but_first. Qed.
Print Assumptions C84_alternatives_but_first.

Example C84_alternatives_case :
  get_intents_whitelist id_order home_engine None None = Ok None /\
  get_intents_whitelist id_order home_engine only_light None = Ok only_light /\
  get_intents_whitelist id_order home_engine only_temp None = Ok only_temp /\
  narrower only_light None /\ narrower only_temp None /\
  get_intents id_order home_engine bright = Ok (listed home_engine bright) /\
  (first_listed None (listed home_engine bright) (hd (mkIR None f0) (listed home_engine bright)) /\
   ir_name (hd (mkIR None f0) (listed home_engine bright)) = Some $"lightOn") /\
  parse_with_alternatives demo_ext id_order id_order home_engine bright None None 3 0 = Ok bright_all /\
  parse_with_alternatives demo_ext id_order id_order home_engine bright only_light None 3 0 = Ok (bright_with only_light) /\
  parse_with_alternatives demo_ext id_order id_order home_engine bright only_temp None 3 0 = Ok (bright_with only_temp) /\
  (alternatives_in bright_all = [Some $"setTemp"; None] /\
   alternatives_in (bright_with only_light) = [None] /\ alternatives_in (bright_with only_temp) = [None]).
Proof.
  split; [vm_compute; reflexivity|]. split; [vm_compute; reflexivity|]. split; [vm_compute; reflexivity|].
  split; [intros i _; exact I|]. split; [intros i _; exact I|].
  split; [exact listed_ok|].
  split; [exact bright_first|]. split; [exact bright_all_ok|]. split; [exact bright_light|]. split; [exact bright_temp|].
  exact bright_alternatives.
Qed.
