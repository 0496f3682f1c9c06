(** Theorems about the answers of the rule based parsers: C01 (filters, per parser), C16
    to C21, C23 to C25. *)
From Coq Require Import String List NArith ZArith Bool Permutation Lia Sorted.
From Verif Require Import Base F32 M_Types M_Utils M_Engine M_Det M_Lookup
  S_Base S_Utils S_Engine S_Det S_Rank S_Rules P_Base P_F32 P_Engine P_Utils P_Rank P_Rules
  Demo P_Demo Demo_Rules.
Import ListNotations.

(** ** C01: the rule based parsers honour the filter they are given *)
Theorem C01_deterministic_parser : forall x ord dp, honours_filter (det_intent_parser x ord dp).
Proof. exact det_honours. Qed.
Print Assumptions C01_deterministic_parser.

Theorem C01_lookup_parser : forall x ord lp, honours_filter (lookup_intent_parser x ord lp).
Proof. exact lookup_honours. Qed.
Print Assumptions C01_lookup_parser.

(** The text matches two intents; the filter chooses. *)
Example C01_rules_case :
  ir_name (pr_intent (get_ok no_ipr (ip_parse (det_intent_parser demo_ext id_order demo_dp) temp_text (Some [$"other"]))))
  = Some $"other" /\
  ir_name (pr_intent (get_ok no_ipr (ip_parse (det_intent_parser demo_ext id_order demo_dp) temp_text (Some [$"setTemp"]))))
  = Some $"setTemp" /\
  ir_name (pr_intent (get_ok no_ipr (ip_parse (lookup_intent_parser demo_ext id_order (demo_lp 0)) temp_text (Some [$"setTemp"; $"x"]))))
  = Some $"setTemp" /\
  ir_name (pr_intent (get_ok no_ipr (ip_parse (lookup_intent_parser demo_ext id_order (demo_lp 0)) temp_text (Some [$"lightOn"]))))
  = None.
Proof. repeat split; vm_compute; reflexivity. Qed.

(** ** C16: slots of the deterministic parser *)
Theorem C16_slots_declared_and_disjoint : forall x ord dp input f r,
  det_parse x ord dp input f = Ok r ->
  ordered_disjoint (map is_range (pr_slots r)) /\
  forall s, In s (pr_slots r) ->
    exists i, ir_name (pr_intent r) = Some i /\ declared_slot (dp_slots dp) input i s.
Proof. exact det_slots_declared. Qed.
Print Assumptions C16_slots_declared_and_disjoint.

Theorem C16_slots_inside_text : forall x ord dp input f r,
  tokenizer_ok x ->
  (forall i rs rg, In (i, rs) (dp_regexes dp) -> In rg rs -> regex_ok rg) ->
  builtin_parser_ok (rs_builtin (dp_res dp)) input -> custom_parser_ok (rs_custom (dp_res dp)) input ->
  texts_short x dp input -> patterns_aligned x dp input ->
  det_parse x ord dp input f = Ok r ->
  forall s, In s (pr_slots r) -> inside input (is_range s).
Proof. exact det_slots_inside. Qed.
Print Assumptions C16_slots_inside_text.

Example C16_case :
  tokenizer_ok demo_ext /\
  (forall i rs rg, In (i, rs) (dp_regexes demo_dp) -> In rg rs -> regex_ok rg) /\
  builtin_parser_ok (rs_builtin (dp_res demo_dp)) light_text /\ custom_parser_ok (rs_custom (dp_res demo_dp)) light_text /\
  texts_short demo_ext demo_dp light_text /\ patterns_aligned demo_ext demo_dp light_text /\
  map (fun s => (is_value s, is_range s))
      (pr_slots (get_ok no_ipr (det_parse demo_ext id_order demo_dp light_text None)))
  = [($"kitchen", (16, 23))] /\
  map is_slot_name (pr_slots (get_ok no_ipr (det_parse demo_ext id_order demo_dp light_text None))) = [$"room"].
Proof.
  split; [exact demo_tokenizer_ok|].
  assert (Rx : dp_regexes demo_dp =
    [($"lightOn", [demo_regex (snd (nth 0 demo_patterns ([], [])))]);
     ($"setTemp", [demo_regex (snd (nth 1 demo_patterns ([], [])))]);
     ($"other", [demo_regex (snd (nth 2 demo_patterns ([], [])))])]) by reflexivity.
  assert (Sc : dp_scopes demo_dp =
    [($"lightOn", ([], [$"room"])); ($"setTemp", ([$"snips/number"], [$"room"]));
     ($"other", ([$"snips/number"], [$"room"]))]) by (vm_compute; reflexivity).
  split. { rewrite Rx. intros i rs rg [E|[E|[E|[]]]] H; inv E; destruct H as [<-|[]]; apply demo_regex_ok. }
  split; [apply demo_builtin_ok|]. split; [apply demo_custom_ok|].
  split.
  { split; [vm_compute; reflexivity|]. rewrite Sc. intros i sc es mp fm Hi (bes & ces & Hb & Hc & ->) RE.
    destruct Hi as [E|[E|[E|[]]]]; inv E; vm_compute in Hb, Hc; inv Hb; inv Hc; vm_compute in RE; inv RE;
      vm_compute; reflexivity. }
  split.
  { intros i rs' rs rg es mp fm cl. rewrite Sc, Rx. intros Hi Hr Hg (bes & ces & Hb & Hc & ->) RE PE.
    destruct Hi as [E|[E|[E|[]]]]; inv E; destruct Hr as [E|[E|[E|[]]]]; inv E; destruct Hg as [<-|[]];
      vm_compute in Hb, Hc; inv Hb; inv Hc; vm_compute in RE; inv RE; vm_compute in PE; inv PE;
      intros caps Hcap n rg Hin; vm_compute in Hcap; try discriminate; inv Hcap;
      vm_compute in Hin; repeat (destruct Hin as [Hin|Hin]; [inv Hin|]); try contradiction;
      cbv zeta; cbn [map fst];
      first [left; vm_compute; left; reflexivity
            |right; intros k [<-|[]]; vm_compute; lia]. }
  split; vm_compute; reflexivity.
Qed.

(** ** C17: scores *)
Theorem C17_deterministic_scores : forall x ord dp input n f ms,
  det_matches x ord dp input f = Ok ms -> countable ms ->
  exists tops, det_parse_top x ord dp input n f = Ok tops /\ well_ranked ms n tops.
Proof. exact det_well_ranked. Qed.
Print Assumptions C17_deterministic_scores.

Theorem C17_lookup_scores : forall x ord lp input n f ms,
  lookup_matches x ord lp input f = Ok ms -> countable ms ->
  exists tops, lookup_parse_top x ord lp input n f = Ok tops /\ well_ranked ms n tops.
Proof. exact lookup_well_ranked. Qed.
Print Assumptions C17_lookup_scores.

Example C17_case :
  exists ms, det_matches demo_ext id_order (five_dp id_order) $"a b c d e" None = Ok ms /\
    countable ms /\ map slot_count ms = [0; 1; 5; 5; 5].
Proof.
  eexists (get_ok [] _). split; [apply get_ok_eq; vm_compute; reflexivity|].
  assert (E : map slot_count (get_ok [] (det_matches demo_ext id_order (five_dp id_order) $"a b c d e" None)) = [0; 1; 5; 5; 5])
    by (vm_compute; reflexivity).
  split; [|exact E]. intros m Hm. apply (in_map slot_count) in Hm. rewrite E in Hm.
  simpl in Hm. repeat (destruct Hm as [<-|Hm]; [lia|]). contradiction.
Qed.

(** ** C18: the ambiguity rule *)
Theorem C18_deterministic_answer : forall x ord dp input f ms,
  det_matches x ord dp input f = Ok ms -> countable ms ->
  exists r, det_parse x ord dp input f = Ok r /\ rule_answer ms r.
Proof. exact det_parse_rule. Qed.
Print Assumptions C18_deterministic_answer.

Theorem C18_lookup_answer : forall x ord lp input f ms,
  lookup_matches x ord lp input f = Ok ms -> countable ms ->
  exists r, lookup_parse x ord lp input f = Ok r /\ rule_answer ms r.
Proof. exact lookup_parse_rule. Qed.
Print Assumptions C18_lookup_answer.

(** Two matches with the fewest slots: no intent. *)
Theorem C18_ambiguity : forall ms i j a b r, countable ms ->
  i <> j -> nth_error ms i = Some a -> nth_error ms j = Some b ->
  slot_count a = slot_count b -> (forall m, In m ms -> slot_count a <= slot_count m) ->
  rule_answer ms r -> r = no_intent.
Proof. exact rule_answer_ambiguous. Qed.
Print Assumptions C18_ambiguity.

Example C18_case :
  map (fun m => (ir_name (pr_intent m), slot_count m))
      (get_ok [] (det_matches demo_ext id_order demo_dp temp_text None))
  = [(Some $"setTemp", 2); (Some $"other", 2)] /\
  ir_name (pr_intent (get_ok no_ipr (det_parse demo_ext id_order demo_dp temp_text None))) = None /\
  ir_name (pr_intent (get_ok no_ipr (det_parse demo_ext id_order demo_dp light_text None))) = Some $"lightOn" /\
  feq (ir_score (pr_intent (get_ok no_ipr (det_parse demo_ext id_order demo_dp light_text None)))) f1 = true.
Proof. repeat split; vm_compute; reflexivity. Qed.

(** ** C19: order of the hash maps *)
Theorem C19_deterministic_two_matches :
  forall x lang_of compile o1 o2 o3 o1' o2' o3' ord ord' m res dp dp' input f ms,
  NoDup (map fst (dm_patterns m)) -> NoDup (map fst (dm_stop_whitelist m)) ->
  builtin_parser_ok (rs_builtin res) input -> custom_parser_ok (rs_custom res) input ->
  det_new x lang_of compile o1 o2 o3 m res = Ok dp ->
  det_new x lang_of compile o1' o2' o3' m res = Ok dp' ->
  texts_short x dp input ->
  det_matches x ord dp input f = Ok ms -> countable ms -> length ms <= 2 ->
  det_parse x ord dp input f = det_parse x ord' dp' input f.
Proof. exact det_order_independent. Qed.
Print Assumptions C19_deterministic_two_matches.

Theorem C19_lookup_two_matches : forall x ord ord' lp input f ms,
  lookup_matches x ord lp input f = Ok ms -> countable ms -> length ms <= 2 ->
  lookup_parse x ord lp input f = lookup_parse x ord' lp input f.
Proof. exact lookup_order_independent. Qed.
Print Assumptions C19_lookup_two_matches.

(** With five matches, the answer of the same model on the same text depends on the
    order of a hash map. *)
Theorem C19_order_independence_refuted : exists x lang_of compile o3 o3' m res input dp dp' r r',
  det_new x lang_of compile id_order id_order o3 m res = Ok dp /\
  det_new x lang_of compile id_order id_order o3' m res = Ok dp' /\
  det_parse x id_order dp input None = Ok r /\ det_parse x id_order dp' input None = Ok r' /\
  ir_name (pr_intent r) = Some $"i0" /\ ir_name (pr_intent r') = None.
Proof. exact five_intents_order. Qed.
Print Assumptions C19_order_independence_refuted.

(** [C18_case] has two matches; its model meets the hypotheses. *)
Example C19_case :
  NoDup (map fst (dm_patterns demo_det_model)) /\ NoDup (map fst (dm_stop_whitelist demo_det_model)) /\
  det_new demo_ext demo_lang demo_compile id_order id_order id_order demo_det_model demo_res = Ok demo_dp /\
  is_ok (det_new demo_ext demo_lang demo_compile rev_order rev_order rev_order demo_det_model demo_res) = true /\
  length (get_ok [] (det_matches demo_ext id_order demo_dp temp_text None)) = 2.
Proof.
  split; [|split; [constructor|split; [apply get_ok_eq; vm_compute; reflexivity|split; vm_compute; reflexivity]]].
  repeat constructor; simpl; intuition discriminate.
Qed.

(** ** C20: get_intents *)
Theorem C20_deterministic_intents : forall x ord dp input ms,
  NoDup (hkeys (dp_regexes dp)) -> NoDup (hkeys (dp_scopes dp)) ->
  det_matches x ord dp input None = Ok ms -> countable ms ->
  exists l, det_get_intents x ord dp input = Ok l /\ lists_intents (hkeys (dp_regexes dp)) ms l.
Proof. exact det_lists. Qed.
Print Assumptions C20_deterministic_intents.

Theorem C20_lookup_intents : forall x ord lp input ms,
  NoDup (lp_intents_names lp) -> lookup_matches x ord lp input None = Ok ms -> countable ms ->
  exists l, lookup_get_intents x ord lp input = Ok l /\ lists_intents (lp_intents_names lp) ms l.
Proof. exact lookup_lists. Qed.
Print Assumptions C20_lookup_intents.

Example C20_case :
  hkeys (dp_regexes demo_dp) = [$"lightOn"; $"setTemp"; $"other"] /\
  NoDup (hkeys (dp_regexes demo_dp)) /\ NoDup (hkeys (dp_scopes demo_dp)) /\
  map ir_name (get_ok [] (det_get_intents demo_ext id_order demo_dp temp_text))
  = [Some $"setTemp"; Some $"other"; Some $"lightOn"; None] /\
  map ir_name (get_ok [] (lookup_get_intents demo_ext id_order (demo_lp 0) temp_text))
  = [Some $"setTemp"; Some $"lightOn"; None].
Proof.
  assert (K : hkeys (dp_regexes demo_dp) = [$"lightOn"; $"setTemp"; $"other"]) by reflexivity.
  assert (K' : hkeys (dp_scopes demo_dp) = [$"lightOn"; $"setTemp"; $"other"]) by (vm_compute; reflexivity).
  rewrite K, K'.
  split; [reflexivity|]. split; [repeat constructor; simpl; intuition discriminate|].
  split; [repeat constructor; simpl; intuition discriminate|]. split; vm_compute; reflexivity.
Qed.

(** ** C21: get_slots *)
Theorem C21_deterministic_slots : forall x ord dp input intent,
  NoDup (hkeys (dp_scopes dp)) ->
  (~ In intent (hkeys (dp_regexes dp)) -> det_get_slots x ord dp input intent = Err EUnknownIntent) /\
  (In intent (hkeys (dp_regexes dp)) ->
    (sget intent (dp_scopes dp) = None -> det_get_slots x ord dp input intent = Ok []) /\
    (forall sc, sget intent (dp_scopes dp) = Some sc ->
       match match_intent x ord dp input intent sc with
       | Ok (Some m) => countable [m] -> det_get_slots x ord dp input intent = Ok (pr_slots m)
       | Ok None => det_get_slots x ord dp input intent = Ok []
       | Err e => det_get_slots x ord dp input intent = Err e
       | Panic => det_get_slots x ord dp input intent = Panic
       end)).
Proof. exact det_get_slots_spec. Qed.
Print Assumptions C21_deterministic_slots.

(** What [parse] finds for an intent is what [get_slots] gives for this intent. *)
Theorem C21_deterministic_agrees_with_parse : forall x ord dp input f r i,
  NoDup (hkeys (dp_scopes dp)) -> countable [r] ->
  det_parse x ord dp input f = Ok r -> ir_name (pr_intent r) = Some i ->
  det_get_slots x ord dp input i = Ok (pr_slots r).
Proof. exact det_get_slots_agrees. Qed.
Print Assumptions C21_deterministic_agrees_with_parse.

Theorem C21_lookup_slots : forall x ord lp input intent rs,
  (~ In intent (lp_intents_names lp) -> lookup_get_slots x ord lp input intent = Err EUnknownIntent) /\
  (In intent (lp_intents_names lp) ->
   candidate_results x lp input (Some [intent]) = Ok rs -> countable rs ->
   (rs = [] -> lookup_get_slots x ord lp input intent = Ok []) /\
   (rs <> [] -> exists m, In m rs /\
      (forall m', In m' rs -> fle (weight (slot_count m')) (weight (slot_count m)) = true) /\
      lookup_get_slots x ord lp input intent = Ok (pr_slots m))).
Proof. exact lookup_get_slots_spec. Qed.
Print Assumptions C21_lookup_slots.

(** The text is ambiguous (see [C18_case]), the slots of each intent are found. *)
Example C21_case :
  map is_value (get_ok [] (det_get_slots demo_ext id_order demo_dp temp_text $"setTemp")) = [$"bedroom"; $"21"] /\
  map is_value (get_ok [] (det_get_slots demo_ext id_order demo_dp temp_text $"other")) = [$"bedroom"; $"21"] /\
  is_ok (det_get_slots demo_ext id_order demo_dp temp_text $"lightOn") = true /\
  map is_value (get_ok [] (det_get_slots demo_ext id_order demo_dp temp_text $"lightOn")) = [] /\
  map is_value (get_ok [] (lookup_get_slots demo_ext id_order (demo_lp 0) temp_text $"setTemp")) = [$"bedroom"; $"21"] /\
  length (get_ok [] (candidate_results demo_ext (demo_lp 0) temp_text (Some [$"setTemp"]))) = 1.
Proof. repeat split; vm_compute; reflexivity. Qed.

(** ** C23: combinations of entities *)
Theorem C23_all_sublists : forall A (items c : list A), In c (get_items_combinations items) <-> subseq c items.
Proof. exact @items_combinations_In. Qed.
Print Assumptions C23_all_sublists.

Theorem C23_each_once : forall A (items : list A), NoDup items ->
  NoDup (get_items_combinations items) /\ length (get_items_combinations items) = 2 ^ length items.
Proof.
  exact (fun A items ND => conj (items_combinations_NoDup items ND)
           (subseq_count items _ ND (items_combinations_NoDup items ND) (items_combinations_In items))).
Qed.
Print Assumptions C23_each_once.

Theorem C23_empty_then_larger_first : forall A (items : list A), exists rest,
  get_items_combinations items = [] :: rest /\
  StronglySorted (fun c c' => length c' <= length c) rest.
Proof. exact (fun A items => ex_intro _ _ (conj eq_refl (combinations_sorted items (length items)))). Qed.
Print Assumptions C23_empty_then_larger_first.

Example C23_case : get_items_combinations [1; 2; 3] = [[]; [1; 2; 3]; [1; 2]; [1; 3]; [2; 3]; [1]; [2]; [3]].
Proof. reflexivity. Qed.

(** ** C24: slots of the lookup parser *)
Theorem C24_slots_are_detected_entities : forall x ord lp input f r,
  lookup_parse x ord lp input f = Ok r ->
  ordered_disjoint (map is_range (pr_slots r)) /\
  forall s, In s (pr_slots r) ->
    is_value s = substring input (is_range s) /\ In (is_slot_name s) (lp_slots_names lp) /\
    exists e, detected x (lp_res lp) (lp_scopes lp) input e /\ is_range s = me_range e /\ is_entity s = me_name e.
Proof. exact lookup_slots_spec. Qed.
Print Assumptions C24_slots_are_detected_entities.

Example C24_case :
  is_ok (lookup_parse demo_ext id_order (demo_lp 0) temp_text None) = true /\
  map (fun s => (is_slot_name s, (is_value s, is_range s)))
      (pr_slots (get_ok no_ipr (lookup_parse demo_ext id_order (demo_lp 0) temp_text None)))
  = [($"room", ($"bedroom", (11, 18))); ($"degrees", ($"21", (22, 24)))].
Proof. split; vm_compute; reflexivity. Qed.

(** ** C25: crashes of the lookup parser *)
Theorem C25_no_crash : forall x ord lp input f cands,
  table_ok lp -> get_candidates x lp input f = Ok cands -> exists r, lookup_parse x ord lp input f = Ok r.
Proof. exact lookup_no_panic. Qed.
Print Assumptions C25_no_crash.

Theorem C25_crash_iff_bad_entry : forall x ord lp input f cands,
  table_countable lp -> get_candidates x lp input f = Ok cands ->
  (forall e, lookup_parse x ord lp input f <> Err e) /\
  (lookup_parse x ord lp input f = Panic <->
   exists c i ss, In c cands /\ hget Z.eqb (x_hash x (fst c)) (lp_map lp) = Some (i, ss) /\
     bad_entry lp f i ss (length (snd c))).
Proof. exact lookup_panic_iff. Qed.
Print Assumptions C25_crash_iff_bad_entry.

Example C25_case :
  table_ok (demo_lp 0) /\ is_ok (get_candidates demo_ext (demo_lp 0) temp_text None) = true /\
  lookup_parse demo_ext id_order (demo_lp 7) $"broken" None = Panic.
Proof.
  split; [|split; vm_compute; reflexivity].
  intros h i ss H. cbn [demo_lp lp_map demo_table In] in H.
  repeat (destruct H as [H|H]; [inv H; unfold valid_id; simpl; split; [lia|split; [|lia]];
    intros s Hs; repeat (destruct Hs as [<-|Hs]; [lia|]); contradiction|]). contradiction.
Qed.
