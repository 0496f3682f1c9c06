(** Theorems about what the rule based parsers recognise: C62, C63, C64. *)
From Coq Require Import String List NArith ZArith Bool.
From Verif Require Import Base F32 M_Types M_Utils M_Engine M_Det M_Lookup
  S_Base S_Utils S_Engine S_Det S_Rank S_Rules S_Match P_Base P_Match P_MatchDet
  Demo P_Demo Demo_Rules Demo_Match.
Import ListNotations.

(** ** C62: the lookup parser recognises the learnt texts *)
Theorem C62_answer : forall x lang_of o m res lp ord input f r,
  lookup_setting lang_of o m res lp -> lookup_parse x ord lp input f = Ok r ->
  exists ms, recognised_matches x (lp_lang lp) m res input f ms /\ rule_answer ms r.
Proof. exact lookup_exact. Qed.
Print Assumptions C62_answer.

Theorem C62_answer_is_learnt : forall x lang_of o m res lp ord input f r i,
  lookup_setting lang_of o m res lp ->
  lookup_parse x ord lp input f = Ok r -> ir_name (pr_intent r) = Some i ->
  recognised x (lp_lang lp) m res input f i (pr_slots r) /\
  forall slots, recognised x (lp_lang lp) m res input f i slots -> length (pr_slots r) <= length slots.
Proof. exact lookup_recognised. Qed.
Print Assumptions C62_answer_is_learnt.

Theorem C62_learnt_is_answered : forall x lang_of o m res lp ord input f r i slots,
  lookup_setting lang_of o m res lp -> lookup_parse x ord lp input f = Ok r ->
  recognised x (lp_lang lp) m res input f i slots ->
  (forall j slots', recognised x (lp_lang lp) m res input f j slots' -> j = i) ->
  pr_intent r = mkIR (Some i) f1.
Proof. exact lookup_certain. Qed.
Print Assumptions C62_learnt_is_answered.

Theorem C62_nothing_learnt : forall x lang_of o m res lp ord input f r,
  lookup_setting lang_of o m res lp -> lookup_parse x ord lp input f = Ok r ->
  (forall i slots, ~ recognised x (lp_lang lp) m res input f i slots) -> r = no_intent.
Proof. exact lookup_nothing. Qed.
Print Assumptions C62_nothing_learnt.

Theorem C62_slots : forall x lang_of o m res lp ord input i slots,
  lookup_setting lang_of o m res lp -> lookup_get_slots x ord lp input i = Ok slots ->
  (slots = [] /\ forall s, ~ recognised x (lp_lang lp) m res input (Some [i]) i s) \/
  (recognised x (lp_lang lp) m res input (Some [i]) i slots /\
   forall s, recognised x (lp_lang lp) m res input (Some [i]) i s -> length slots <= length s).
Proof. exact lookup_slots_exact. Qed.
Print Assumptions C62_slots.

Theorem C62_always_answers : forall x lang_of o m res lp ord input f,
  lookup_setting lang_of o m res lp -> entities_answered x m res input f -> table_ok lp ->
  exists r, lookup_parse x ord lp input f = Ok r.
Proof. exact lookup_answers. Qed.
Print Assumptions C62_always_answers.

(** A text learnt in the form of its own intent is recognised when only this intent is allowed. *)
Theorem C62_own_form : forall x lang_of o m res lp ord input g i slots r,
  lookup_setting lang_of o m res lp -> In g (lm_scopes m) -> In i (gs_intents g) ->
  recognised_for x (lp_lang lp) m res input g i i slots ->
  lookup_parse x ord lp input (Some [i]) = Ok r -> pr_intent r = mkIR (Some i) f1.
Proof. exact lookup_own_form. Qed.
Print Assumptions C62_own_form.

(** But a text can be recognised because of its form for another intent: the answer without
    filter is then not the answer when only the answered intent is allowed, and [get_slots]
    does not find the slots that [parse] finds. *)
Theorem C62_filter_agreement_refuted : exists x lang_of o m res lp ord input i r r',
  lookup_setting lang_of o m res lp /\
  lookup_parse x ord lp input None = Ok r /\ ir_name (pr_intent r) = Some i /\ map is_value (pr_slots r) = [$"kitchen"] /\
  lookup_parse x ord lp input (Some [i]) = Ok r' /\ ir_name (pr_intent r') = None /\
  lookup_get_slots x ord lp input i = Ok [].
Proof. exact lookup_crossed. Qed.
Print Assumptions C62_filter_agreement_refuted.

Example C62_case :
  lookup_setting demo_lang id_order match_lm demo_res match_lp /\
  (forall input f, entities_answered demo_ext match_lm demo_res input f) /\ table_ok match_lp /\
  (exists r, lookup_parse demo_ext id_order match_lp $"Please SET bedroom to 21" None = Ok r /\
     ir_name (pr_intent r) = Some $"setTemp" /\
     map (fun s => (is_slot_name s, is_value s)) (pr_slots r) = [($"room", $"bedroom"); ($"degrees", $"21")]) /\
  (exists r, lookup_parse demo_ext id_order match_lp $"set the kitchen" (Some [$"lightOn"]) = Ok r /\
     ir_name (pr_intent r) = Some $"lightOn") /\
  (exists r, lookup_parse demo_ext id_order match_lp $"set the kitchen" (Some [$"setTemp"]) = Ok r /\
     ir_name (pr_intent r) = None).
Proof.
  split; [exact match_lookup_setting|]. split; [exact match_answered|]. split; [exact match_table_ok|].
  split; [|split].
  - exists (get_ok no_ipr (lookup_parse demo_ext id_order match_lp $"Please SET bedroom to 21" None)).
    split; [apply get_ok_eq; vm_compute; reflexivity|split; vm_compute; reflexivity].
  - exists (get_ok no_ipr (lookup_parse demo_ext id_order match_lp $"set the kitchen" (Some [$"lightOn"]))).
    split; [apply get_ok_eq; vm_compute; reflexivity|vm_compute; reflexivity].
  - exists (get_ok no_ipr (lookup_parse demo_ext id_order match_lp $"set the kitchen" (Some [$"setTemp"]))).
    split; [apply get_ok_eq; vm_compute; reflexivity|vm_compute; reflexivity].
Qed.

(** ** C63: the deterministic parser recognises what its patterns describe *)
Theorem C63_answer : forall x lang_of compile o1 o2 o3 m res dp ord input f r,
  det_setting x lang_of compile o1 o2 o3 m res dp input -> det_parse x ord dp input f = Ok r ->
  exists ms, pattern_matches x compile (dp_lang dp) m res input f ms /\ rule_answer ms r.
Proof. exact patterns_exact. Qed.
Print Assumptions C63_answer.

Theorem C63_answer_matches : forall x lang_of compile o1 o2 o3 m res dp ord input f r i,
  det_setting x lang_of compile o1 o2 o3 m res dp input -> det_parse x ord dp input f = Ok r ->
  ir_name (pr_intent r) = Some i -> pattern_recognised x compile (dp_lang dp) m res input f i (pr_slots r).
Proof. exact patterns_recognised. Qed.
Print Assumptions C63_answer_matches.

Theorem C63_match_is_answered : forall x lang_of compile o1 o2 o3 m res dp ord input f r i slots,
  det_setting x lang_of compile o1 o2 o3 m res dp input -> det_parse x ord dp input f = Ok r ->
  pattern_recognised x compile (dp_lang dp) m res input f i slots ->
  (forall j s, pattern_recognised x compile (dp_lang dp) m res input f j s -> j = i) ->
  r = mkIPR (mkIR (Some i) f1) slots.
Proof. exact patterns_certain. Qed.
Print Assumptions C63_match_is_answered.

Theorem C63_no_match : forall x lang_of compile o1 o2 o3 m res dp ord input f r,
  det_setting x lang_of compile o1 o2 o3 m res dp input -> det_parse x ord dp input f = Ok r ->
  (forall i slots, ~ pattern_recognised x compile (dp_lang dp) m res input f i slots) -> r = no_intent.
Proof. exact patterns_nothing. Qed.
Print Assumptions C63_no_match.

Theorem C63_slots : forall x lang_of compile o1 o2 o3 m res dp ord input i slots,
  det_setting x lang_of compile o1 o2 o3 m res dp input -> det_get_slots x ord dp input i = Ok slots ->
  (slots = [] /\ forall s, ~ pattern_recognised x compile (dp_lang dp) m res input (Some [i]) i s) \/
  pattern_recognised x compile (dp_lang dp) m res input None i slots.
Proof. exact patterns_slots. Qed.
Print Assumptions C63_slots.

(** Two groups for the same slot; "the" is ignored. *)
Example C63_case :
  det_setting demo_ext demo_lang match_compile id_order id_order id_order (match_dm [] $"home") demo_res
    (match_dp [] $"home") move_text /\
  exists r, det_parse demo_ext id_order (match_dp [] $"home") move_text None = Ok r /\
    ir_name (pr_intent r) = Some $"move" /\
    map (fun s => (is_slot_name s, is_value s)) (pr_slots r) = [($"room", $"kitchen"); ($"room", $"bedroom")].
Proof.
  split; [exact move_setting|].
  exists (get_ok no_ipr (det_parse demo_ext id_order (match_dp [] $"home") move_text None)).
  split; [apply get_ok_eq; vm_compute; reflexivity|split; vm_compute; reflexivity].
Qed.

(** ** C64: when the deterministic parser answers *)
Theorem C64_answers : forall x lang_of compile o1 o2 o3 m res dp ord input f,
  det_setting x lang_of compile o1 o2 o3 m res dp input -> intents_ready x m res input f -> groups_declared compile m ->
  exists r, det_parse x ord dp input f = Ok r.
Proof. exact patterns_safe. Qed.
Print Assumptions C64_answers.

(** It panics exactly when the first pattern that matches, for an allowed intent, has a group
    that stands for no slot of the intent. *)
Theorem C64_crash_iff : forall x lang_of compile o1 o2 o3 m res dp ord input f,
  det_setting x lang_of compile o1 o2 o3 m res dp input -> intents_ready x m res input f ->
  (forall e, det_parse x ord dp input f <> Err e) /\
  (det_parse x ord dp input f = Panic <-> exists i decls, In (i, decls) (dm_slots m) /\ allowed f i /\
     intent_result x compile (dp_lang dp) m res input i decls Panic).
Proof. exact patterns_crash. Qed.
Print Assumptions C64_crash_iff.

(** One allowed intent with slots and without patterns is enough: no text has an answer. *)
Theorem C64_intent_without_patterns : forall x lang_of compile o1 o2 o3 m res dp ord input f i decls,
  det_new x lang_of compile o1 o2 o3 m res = Ok dp -> det_keys_once m ->
  In (i, decls) (dm_slots m) -> allowed f i -> ~ In i (map fst (dm_patterns m)) ->
  forall r, det_parse x ord dp input f <> Ok r.
Proof. exact patterns_missing. Qed.
Print Assumptions C64_intent_without_patterns.

(** So a parser that loads may refuse every text, or panic. *)
Theorem C64_loaded_parsers_answer_refuted : 
  (exists x lang_of compile m res dp input r r',
     det_setting x lang_of compile id_order id_order id_order m res dp input /\
     ~ intents_ready x m res input None /\
     det_parse x id_order dp input None = Err r /\
     det_parse x id_order dp input (Some [$"go"]) = Ok r' /\ ir_name (pr_intent r') = Some $"go") /\
  (exists x lang_of compile m res dp input,
     det_setting x lang_of compile id_order id_order id_order m res dp input /\ intents_ready x m res input None /\
     det_parse x id_order dp input None = Panic).
Proof. exact (conj det_orphan det_unplaced). Qed.
Print Assumptions C64_loaded_parsers_answer_refuted.

Example C64_case :
  det_setting demo_ext demo_lang match_compile id_order id_order id_order (match_dm [] $"home") demo_res
    (match_dp [] $"home") move_text /\
  (forall input f, intents_ready demo_ext (match_dm [] $"home") demo_res input f) /\
  groups_declared match_compile (match_dm [] $"home").
Proof. split; [exact move_setting|split; [exact (match_ready _)|exact home_declared]]. Qed.
