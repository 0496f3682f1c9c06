(** Theorems about overlap resolution, placeholders and stop words: C12, C13, C14,
    C15, C22. *)
From Coq Require Import String List NArith ZArith Permutation Lia.
From Verif Require Import Base M_Types M_Utils M_Engine M_Det S_Base S_Utils S_Det
  P_Utils P_Det Demo Demo_Utils P_Demo.
Import ListNotations.

(** ** C12 *)
Theorem C12_entities_resolution : forall es,
  (forall e, In e es -> rstart (me_range e) < rend (me_range e) /\
                        (Z.of_nat (rend (me_range e)) < 2 ^ 31)%Z) ->
  overlap_resolution me_range text_length es (deduplicate_overlapping_entities es).
Proof. exact dedup_entities_resolution. Qed.
Print Assumptions C12_entities_resolution.

Theorem C12_entities_isolated_kept : forall es e,
  (forall e, In e es -> rstart (me_range e) < rend (me_range e)) ->
  In e es -> (forall e', In e' es -> overlaps (me_range e) (me_range e') -> e' = e) ->
  In e (deduplicate_overlapping_entities es).
Proof. exact (resolve_isolated me_range entity_sort_key). Qed.
Print Assumptions C12_entities_isolated_kept.

Theorem C12_entities_idempotent : forall es,
  (forall e, In e es -> rstart (me_range e) < rend (me_range e)) ->
  deduplicate_overlapping_entities (deduplicate_overlapping_entities es)
  = deduplicate_overlapping_entities es.
Proof. exact (resolve_idem me_range entity_sort_key). Qed.
Print Assumptions C12_entities_idempotent.

Theorem C12_slots_resolution : forall x l slots,
  (forall s, In s slots -> rstart (is_range s) < rend (is_range s) /\
                           (slot_priority x l s < 2 ^ 31)%Z) ->
  overlap_resolution is_range (slot_priority x l) slots (deduplicate_overlapping_slots x l slots).
Proof. exact dedup_slots_resolution. Qed.
Print Assumptions C12_slots_resolution.

Theorem C12_slots_isolated_kept : forall x l slots s,
  (forall s, In s slots -> rstart (is_range s) < rend (is_range s)) ->
  In s slots -> (forall s', In s' slots -> overlaps (is_range s) (is_range s') -> s' = s) ->
  In s (deduplicate_overlapping_slots x l slots).
Proof. exact (fun x l => resolve_isolated is_range (slot_sort_key x l)). Qed.
Print Assumptions C12_slots_isolated_kept.

Theorem C12_slots_idempotent : forall x l slots,
  (forall s, In s slots -> rstart (is_range s) < rend (is_range s)) ->
  deduplicate_overlapping_slots x l (deduplicate_overlapping_slots x l slots)
  = deduplicate_overlapping_slots x l slots.
Proof. exact (fun x l => resolve_idem is_range (slot_sort_key x l)). Qed.
Print Assumptions C12_slots_idempotent.

Example C12_case :
  (forall e, In e demo_ents -> rstart (me_range e) < rend (me_range e) /\
                               (Z.of_nat (rend (me_range e)) < 2 ^ 31)%Z) /\
  deduplicate_overlapping_entities demo_ents
  = [mkME (3, 9) $"size"; mkME (9, 11) $"x"; mkME (12, 16) $"room"].
Proof.
  split; [|reflexivity].
  intros e H. repeat (destruct H as [<-|H]; [cbn; lia|]). contradiction.
Qed.

(** ** C13 *)
(** The entities that are kept, [kept], are a resolution of the overlaps; the new text
    is the text where their ranges are replaced by their placeholders, and the
    mapping is the list of the positions of the placeholders. *)
Theorem C13_replacement : forall text es placeholder,
  (forall e, In e es -> wf_range (length text) (me_range e) /\ placeholder (me_name e) <> []) ->
  (Z.of_nat (length text) < 32768)%Z ->
  exists kept,
    overlap_resolution me_range text_length es kept /\
    let edits := map (fun e => (me_range e, placeholder (me_name e))) kept in
    edits_ok (length text) 0 edits /\
    ((Z.of_nat (length (apply_edits text 0 edits)) < 32768)%Z ->
     replace_entities text es placeholder = (edit_positions 0 0 edits, apply_edits text 0 edits)).
Proof. exact replacement_spec. Qed.
Print Assumptions C13_replacement.

(** Each entry of the mapping designates a placeholder in the new text and the range
    of its entity in the old one. *)
Theorem C13_mapping_designates_placeholders : forall text es placeholder mapping new,
  (forall e, In e es -> wf_range (length text) (me_range e) /\ placeholder (me_name e) <> []) ->
  (Z.of_nat (length text) < 32768)%Z ->
  replace_entities text es placeholder = (mapping, new) ->
  (Z.of_nat (length new) < 32768)%Z ->
  (forall k r, In (k, r) mapping ->
     exists e, In e es /\ me_range e = r /\ wf_range (length new) k /\
               substring new k = placeholder (me_name e)) /\
  ordered_disjoint (map fst mapping) /\ NoDup (map fst mapping).
Proof. exact mapping_designates. Qed.
Print Assumptions C13_mapping_designates_placeholders.

Example C13_case :
  (forall e, In e demo_es -> wf_range (length demo_text) (me_range e) /\
                             get_entity_placeholder demo_ext (me_name e) <> []) /\
  (Z.of_nat (length demo_text) < 32768)%Z /\
  replace_entities demo_text demo_es (get_entity_placeholder demo_ext)
  = ([((10, 17), (10, 13)); ((21, 27), (17, 24))], $"set color %COLOR% in %ROOM% now").
Proof.
  split; [|split; [cbn; lia|reflexivity]].
  intros e H. repeat (destruct H as [<-|H]; [split; [unfold wf_range; cbn; lia|discriminate]|]). contradiction.
Qed.

(** ** C14 *)
(** Every text with one entity that starts at or after character 32768 (and before
    65536): the new text is right, the mapping points outside of it. *)
Theorem C14_long_texts : forall text e placeholder,
  wf_range (length text) (me_range e) ->
  (32768 <= Z.of_nat (rstart (me_range e)) < 65536)%Z ->
  let '(mapping, new) := replace_entities text [e] placeholder in
  new = substring text (0, rstart (me_range e)) ++ placeholder (me_name e)
        ++ substring text (rend (me_range e), length text) /\
  exists k, mapping = [(k, me_range e)] /\ (Z.of_nat (rstart k) >= 2 ^ 63)%Z.
Proof. exact long_text_mapping. Qed.
Print Assumptions C14_long_texts.

(** So the bound of C13 cannot be dropped. *)
Theorem C14_long_texts_refuted : exists text e placeholder mapping new k,
  wf_range (length text) (me_range e) /\ placeholder (me_name e) <> [] /\
  replace_entities text [e] placeholder = (mapping, new) /\
  In (k, me_range e) mapping /\ ~ wf_range (length new) k.
Proof. exact long_text_refuted. Qed.
Print Assumptions C14_long_texts_refuted.

(** ** C15 *)
Theorem C15_placeholder_to_entity : forall text es placeholder mapping new ord k r,
  (forall e, In e es -> wf_range (length text) (me_range e) /\ placeholder (me_name e) <> []) ->
  (Z.of_nat (length text) < 32768)%Z ->
  replace_entities text es placeholder = (mapping, new) ->
  (Z.of_nat (length new) < 32768)%Z ->
  In (k, r) mapping -> restore_range (reorder ord mapping) k = r.
Proof. exact restore_placeholder_spec. Qed.
Print Assumptions C15_placeholder_to_entity.

Theorem C15_outside_placeholders : forall text es placeholder mapping new ord r,
  (forall e, In e es -> wf_range (length text) (me_range e) /\ placeholder (me_name e) <> []) ->
  (Z.of_nat (length text) < 32768)%Z ->
  replace_entities text es placeholder = (mapping, new) ->
  (Z.of_nat (length new) < 32768)%Z ->
  rstart r <= rend r -> rend r <= length new ->
  (forall k v, In (k, v) mapping -> rend k <= rstart r \/ rend r <= rstart k) ->
  let r' := restore_range (reorder ord mapping) r in
  rstart r' <= rend r' /\ rend r' <= length text /\ same_text new r text r' /\
  (forall k v, In (k, v) mapping -> rend v <= rstart r' \/ rend r' <= rstart v).
Proof. exact restore_outside_spec. Qed.
Print Assumptions C15_outside_placeholders.

(** The iteration order of the map does not matter, for any range. *)
Theorem C15_order_independent : forall text es placeholder mapping new ord ord' r,
  (forall e, In e es -> wf_range (length text) (me_range e) /\ placeholder (me_name e) <> []) ->
  (Z.of_nat (length text) < 32768)%Z ->
  replace_entities text es placeholder = (mapping, new) ->
  (Z.of_nat (length new) < 32768)%Z ->
  restore_range (reorder ord mapping) r = restore_range (reorder ord' mapping) r.
Proof. exact restore_order_spec. Qed.
Print Assumptions C15_order_independent.

(** "in" after the placeholder of the colour; "now" after both. *)
Example C15_case :
  let '(mapping, new) := replace_entities demo_text demo_es (get_entity_placeholder demo_ext) in
  substring new (18, 20) = $"in" /\
  restore_range (reorder rev_order mapping) (18, 20) = (14, 16) /\
  substring new (28, 31) = $"now" /\
  restore_range (reorder rev_order mapping) (28, 31) = (25, 28) /\
  restore_range (reorder rev_order mapping) (21, 27) = (17, 24) /\
  substring demo_text (25, 28) = $"now".
Proof. vm_compute. repeat split; reflexivity. Qed.

(** ** C22 *)
Theorem C22_stop_words_blanked : forall x dp s intent,
  tokens_ok s (x_tokenize x (dp_lang dp) s) ->
  exists s', det_preprocess x dp s intent = Ok s' /\
    blanked (in_meaningful_token x (dp_lang dp)
               (stop_words_of (dp_stop dp) (dp_specific_stop dp) intent) s) s s'.
Proof. exact det_preprocess_blanked. Qed.
Print Assumptions C22_stop_words_blanked.

(** Stop words of an intent: its own list if it has one, otherwise the general one;
    its own list is the general one without the intent's exceptions. *)
Theorem C22_stop_words_of_intent : forall x lang_of compile o1 o2 o3 m res dp intent w,
  NoDup (map fst (dm_stop_whitelist m)) ->
  det_new x lang_of compile o1 o2 o3 m res = Ok dp ->
  (In w (stop_words_of (dp_stop dp) (dp_specific_stop dp) intent) <->
   dm_ignore_stop_words m = true /\ In w (rs_stop_words res) /\
   ~ (exists ws, In (intent, ws) (dm_stop_whitelist m) /\ In w ws)).
Proof. exact stop_words_spec. Qed.
Print Assumptions C22_stop_words_of_intent.

Example C22_case :
  tokens_ok $"Please light THE room" (x_tokenize demo_ext EN $"Please light THE room") /\
  (let* dp := det_new demo_ext (fun _ => Some EN) (fun _ => Err EOther) id_order id_order id_order
                stop_model demo_res in
   det_preprocess demo_ext dp $"Please light THE room" $"lightOn") = Ok $"Please light     room" /\
  (let* dp := det_new demo_ext (fun _ => Some EN) (fun _ => Err EOther) id_order id_order id_order
                stop_model demo_res in
   det_preprocess demo_ext dp $"Please light THE room" $"other") = Ok $"       light     room".
Proof. split; [apply demo_tokenizer_ok|]. split; vm_compute; reflexivity. Qed.
