(** Properties of the engine: C01 (engine level) to C11. *)
From Coq Require Import String List NArith ZArith Bool Arith Permutation.
From Verif Require Import Base F32 M_Types M_Engine S_Base S_Engine P_Engine Demo.
Import ListNotations.

(** ** C01, engine level: if every parser honours the restriction it is given, the
    answer and the alternatives are allowed by the caller's filters. *)
Theorem C01_filters_honoured : forall x o1 o2 en input w b n salts res,
  (forall p, In p (en_parsers en) -> honours_filter p) ->
  (w <> None \/ b <> None) ->
  parse_with_alternatives x o1 o2 en input w b n salts = Ok res ->
  (forall i, ir_name (ps_intent res) = Some i -> known en i /\ allowed w b i) /\
  (forall a i, In a (ps_alternatives res) -> ir_name (al_intent a) = Some i ->
               known en i /\ allowed w b i).
Proof. exact filters_honoured. Qed.
Print Assumptions C01_filters_honoured.

Example C01_case :
  honours_filter filtering_parser /\
  exists res, parse_with_alternatives demo_ext id_order id_order (demo_engine [demo_p0; filtering_parser])
                demo_input (Some [$"lightOn"; $"setTemp"]) (Some [$"setTemp"]) 3 0 = Ok res /\
              ir_name (ps_intent res) = Some $"lightOn".
Proof.
  split.
  - intros input l r i H. inversion H; subst r; simpl.
    destruct (smem _ l) eqn:E; [|discriminate]. intros K. inversion K; subst i.
    apply P_Base.smem_spec. exact E.
  - eexists (get_ok no_result _). split; [apply get_ok_eq|]; vm_compute; reflexivity.
Qed.

(** ** C02 *)
Theorem C02_unknown_names_rejected : forall x o1 o2 en input w b n salts,
  ~ (names_known en w /\ names_known en b) ->
  exists e, forall parsers,
    parse_with_alternatives x o1 o2 (mkEngine (en_dataset en) parsers (en_resources en))
                            input w b n salts = Err e.
Proof. exact unknown_rejected. Qed.
Print Assumptions C02_unknown_names_rejected.

(** The filter computation fails only in that case, and never panics. *)
Theorem C02_known_names_accepted : forall ord en w b,
  ((exists e, get_intents_whitelist ord en w b = Err e) <->
   ~ (names_known en w /\ names_known en b)) /\
  get_intents_whitelist ord en w b <> Panic.
Proof. exact (fun ord en w b => conj (whitelist_err_iff ord en w b) (whitelist_never_panics ord en w b)). Qed.
Print Assumptions C02_known_names_accepted.

Example C02_case : ~ (names_known (demo_engine [demo_p1]) (Some [$"lightOn"; $"typo"]) /\
                      names_known (demo_engine [demo_p1]) None).
Proof.
  intros [H _]. specialize (H _ $"typo" eq_refl (or_intror (or_introl eq_refl))).
  destruct H as [m H]. vm_compute in H. intuition discriminate.
Qed.

(** ** C03 *)
Theorem C03_effective_filter : forall ord en w b,
  names_known en w -> names_known en b ->
  exists f, get_intents_whitelist ord en w b = Ok f /\
    (f = None <-> w = None /\ b = None) /\
    (forall l, f = Some l -> forall i, In i l <-> known en i /\ allowed w b i).
Proof. exact whitelist_ok. Qed.
Print Assumptions C03_effective_filter.

Example C03_case :
  names_known (demo_engine []) (Some [$"setTemp"; $"lightOn"]) /\
  names_known (demo_engine []) (Some [$"lightOn"]) /\
  get_intents_whitelist rev_order (demo_engine []) (Some [$"setTemp"; $"lightOn"]) (Some [$"lightOn"])
  = Ok (Some [$"setTemp"]).
Proof.
  repeat split; intros l i E H; inversion E; subst l; simpl in H; unfold known;
    destruct H as [<-|H]; try (destruct H as [<-|[]]); try contradiction; eexists; simpl; eauto.
Qed.

(** ** C04 *)
Theorem C04_answer_of_first_match : forall x o1 o2 en input w b salts res,
  parse_with_alternatives x o1 o2 en input w b 0 salts = Ok res ->
  ps_input res = input /\ ps_alternatives res = [] /\
  exists wl, get_intents_whitelist o1 en w b = Ok wl /\
  ((exists pre p post r,
       en_parsers en = pre ++ p :: post /\
       (forall q, In q pre -> exists s, finds_nothing q input wl s) /\
       ip_parse p input wl = Ok r /\ ir_name (pr_intent r) <> None /\
       ps_intent res = pr_intent r /\
       resolve_slots x en input (pr_slots r) salts = Ok (ps_slots res))
   \/
   (exists scores,
       Forall2 (fun q s => finds_nothing q input wl s) (en_parsers en) scores /\
       ps_intent res = mkIR None (last scores f0) /\ ps_slots res = [])).
Proof. exact cascade. Qed.
Print Assumptions C04_answer_of_first_match.

(** The parsers after the first match ([post]) do not occur in the right-hand side. *)
Theorem C04_first_match_wins : forall x o1 o2 en input w b salts wl pre p post r,
  en_parsers en = pre ++ p :: post ->
  get_intents_whitelist o1 en w b = Ok wl ->
  (forall q, In q pre -> exists s, finds_nothing q input wl s) ->
  ip_parse p input wl = Ok r -> ir_name (pr_intent r) <> None ->
  parse_with_alternatives x o1 o2 en input w b 0 salts =
  match resolve_slots x en input (pr_slots r) salts with
  | Ok slots => Ok (mkPR input (pr_intent r) slots [])
  | Err e => Err e
  | Panic => Panic
  end.
Proof. exact first_wins. Qed.
Print Assumptions C04_first_match_wins.

Theorem C04_no_match : forall x o1 o2 en input w b salts wl scores,
  get_intents_whitelist o1 en w b = Ok wl ->
  Forall2 (fun q s => finds_nothing q input wl s) (en_parsers en) scores ->
  parse_with_alternatives x o1 o2 en input w b 0 salts =
  Ok (mkPR input (mkIR None (last scores f0)) [] []).
Proof. exact none_found. Qed.
Print Assumptions C04_no_match.

Theorem C04_reached_failure : forall x o1 o2 en input w b n salts wl pre p post,
  en_parsers en = pre ++ p :: post ->
  get_intents_whitelist o1 en w b = Ok wl ->
  (forall q, In q pre -> exists s, finds_nothing q input wl s) ->
  (forall e, ip_parse p input wl = Err e ->
     parse_with_alternatives x o1 o2 en input w b n salts = Err e) /\
  (ip_parse p input wl = Panic ->
     parse_with_alternatives x o1 o2 en input w b n salts = Panic).
Proof. exact reached_failure. Qed.
Print Assumptions C04_reached_failure.

(** Second parser wins although the third one fails. *)
Example C04_case :
  (forall q, In q [demo_p0] -> exists s, finds_nothing q demo_input None s) /\
  exists res, parse demo_ext id_order id_order (demo_engine [demo_p0; demo_p1; demo_bad]) demo_input None None
              = Ok res /\ ir_name (ps_intent res) = Some $"lightOn" /\
              feq (ir_score (ps_intent res)) (f_of 2 3) = true /\
              map sl_raw_value (ps_slots res) = [$"kitchen"].
Proof.
  split.
  - intros q [<-|[]]. eexists _, _. reflexivity.
  - eexists (get_ok no_result _). split; [apply get_ok_eq; vm_compute; reflexivity|].
    repeat split; vm_compute; reflexivity.
Qed.

(** ** C05 *)
Theorem C05_parse_is_zero_alternatives : forall x o1 o2 en input w b,
  parse x o1 o2 en input w b = parse_with_alternatives x o1 o2 en input w b 0 0.
Proof. exact (fun x o1 o2 en input w b => eq_refl). Qed.
Print Assumptions C05_parse_is_zero_alternatives.

Theorem C05_main_answer_unchanged : forall x o1 o2 en input w b n salts res,
  parse_with_alternatives x o1 o2 en input w b n salts = Ok res ->
  exists res0, parse_with_alternatives x o1 o2 en input w b 0 salts = Ok res0 /\
    ps_alternatives res0 = [] /\ ps_input res = ps_input res0 /\
    ps_intent res = ps_intent res0 /\ ps_slots res = ps_slots res0.
Proof. exact pwa_same_main. Qed.
Print Assumptions C05_main_answer_unchanged.

Theorem C05_alternatives_bounds : forall x o1 o2 en input w b n salts res,
  parse_with_alternatives x o1 o2 en input w b n salts = Ok res ->
  length (ps_alternatives res) <= n /\
  best_first (map al_intent (ps_alternatives res)) /\
  (forall a, In a (ps_alternatives res) -> admissible en w b (al_intent a)).
Proof. exact alternatives_filtered. Qed.
Print Assumptions C05_alternatives_bounds.

(** What the alternatives are: the admissible listed intents, without the first one,
    each with the slots [get_slots] gives for it. *)
Theorem C05_alternatives_are : forall x o1 o2 en input w b n salts res,
  parse_with_alternatives x o1 o2 en input w b n salts = Ok res ->
  exists res0,
    parse_with_alternatives x o1 o2 en input w b 0 salts = Ok res0 /\
    ps_alternatives res0 = [] /\
    ps_input res = ps_input res0 /\ ps_intent res = ps_intent res0 /\ ps_slots res = ps_slots res0 /\
    (n <> 0 ->
     exists out adm, get_intents o2 en input = Ok out /\
       subseq adm out /\ (forall r, In r adm <-> In r out /\ admissible en w b r) /\
       map al_intent (ps_alternatives res) = firstn n (tl adm) /\
       forall a, In a (ps_alternatives res) ->
         match ir_name (al_intent a) with
         | Some i => get_slots_with_alternatives x en input i salts = Ok (al_slots a)
         | None => al_slots a = []
         end) /\
    (n = 0 -> res = res0).
Proof. exact pwa_ok. Qed.
Print Assumptions C05_alternatives_are.

Example C05_case :
  exists res, parse_with_alternatives demo_ext id_order rev_order (demo_engine [demo_p1; demo_p2])
                demo_input None (Some [$"setTemp"]) 2 0 = Ok res /\
              map (fun a => ir_name (al_intent a)) (ps_alternatives res) = [None].
Proof. eexists (get_ok no_result _). split; [apply get_ok_eq|]; vm_compute; reflexivity. Qed.

(** Asking for alternatives can turn a success into a failure: the later parser,
    not consulted by [parse], is consulted for alternatives. *)
Theorem C05_alternatives_can_fail_refuted :
  exists en input e,
    is_ok (parse_with_alternatives demo_ext id_order id_order en input None None 0 0) = true /\
    parse_with_alternatives demo_ext id_order id_order en input None None 1 0 = Err e.
Proof.
  exists (demo_engine [demo_p1; demo_bad]), demo_input, EOther. split; vm_compute; reflexivity.
Qed.
Print Assumptions C05_alternatives_can_fail_refuted.

(** ** C06 *)
Theorem C06_main_duplicated_iff : forall x o1 o2 en input w b n salts res out,
  parse_with_alternatives x o1 o2 en input w b n salts = Ok res ->
  get_intents o2 en input = Ok out -> length out <= n ->
  exists adm,
    subseq adm out /\ (forall r, In r adm <-> In r out /\ admissible en w b r) /\
    ((exists a, In a (ps_alternatives res) /\ ir_name (al_intent a) = ir_name (ps_intent res)) <->
     (exists r, In r adm /\ ir_name r = ir_name (ps_intent res)) /\
     option_map ir_name (hd_error adm) <> Some (ir_name (ps_intent res))).
Proof. exact main_duplicated. Qed.
Print Assumptions C06_main_duplicated_iff.

(** The promise of the code comment is broken: the main intent is repeated and
    the best listed intent is lost. *)
Theorem C06_no_duplicate_refuted :
  exists en input res out best rest,
    parse_with_alternatives demo_ext id_order id_order en input None None 3 0 = Ok res /\
    get_intents id_order en input = Ok out /\ out = best :: rest /\
    (exists a, In a (ps_alternatives res) /\ ir_name (al_intent a) = ir_name (ps_intent res)) /\
    ir_name best <> ir_name (ps_intent res) /\
    ~ In (ir_name best) (map (fun a => ir_name (al_intent a)) (ps_alternatives res)).
Proof.
  exists (demo_engine [demo_p1; demo_p2]), demo_input.
  pose (out := get_ok [] (get_intents id_order (demo_engine [demo_p1; demo_p2]) demo_input)).
  eexists (get_ok no_result _), out, (hd (mkIR None f0) out), (tl out).
  split; [apply get_ok_eq; vm_compute; reflexivity|].
  split; [apply get_ok_eq; vm_compute; reflexivity|].
  split; [apply hd_tl_eq; vm_compute; discriminate|].
  split; [apply main_again_b; vm_compute; reflexivity|].
  split; vm_compute; intuition discriminate.
Qed.
Print Assumptions C06_no_duplicate_refuted.

Example C06_case :
  exists res out, parse_with_alternatives demo_ext id_order id_order (demo_engine [demo_p1])
                demo_input None None 3 0 = Ok res /\
              get_intents id_order (demo_engine [demo_p1]) demo_input = Ok out /\ length out <= 3 /\
              map (fun a => ir_name (al_intent a)) (ps_alternatives res) = [Some $"setTemp"; None].
Proof.
  eexists (get_ok no_result _), (get_ok [] _).
  split; [apply get_ok_eq; vm_compute; reflexivity|].
  split; [apply get_ok_eq; vm_compute; reflexivity|].
  split; [vm_compute; apply le_n|vm_compute; reflexivity].
Qed.

(** ** C07 *)
Theorem C07_each_intent_once_best_first : forall ord en input out,
  get_intents ord en input = Ok out -> NoDup (map ir_name out) /\ best_first out.
Proof. exact get_intents_once_best_first. Qed.
Print Assumptions C07_each_intent_once_best_first.

Theorem C07_best_score : forall ord en input lists,
  Forall2 (fun p l => ip_get_intents p input = Ok l) (en_parsers en) lists ->
  (forall l, In l lists -> NoDup (map ir_name l)) ->
  (forall r, In r (concat lists) -> fis_nan (ir_score r) = false) ->
  exists out, get_intents ord en input = Ok out /\
    (forall r, In r out ->
       In r (concat lists) /\
       forall r', In r' (concat lists) -> ir_name r' = ir_name r ->
                  fle (ir_score r') (ir_score r) = true) /\
    (forall r', In r' (concat lists) ->
       flt f0 (ir_score r') = true \/
       (exists pre l post, lists = pre ++ l :: post /\ Forall (fun l => l = []) pre /\ In r' l) ->
       exists r, In r out /\ ir_name r = ir_name r').
Proof. exact get_intents_best. Qed.
Print Assumptions C07_best_score.

Theorem C07_hash_order : forall ord ord' en input,
  match get_intents ord en input, get_intents ord' en input with
  | Ok l, Ok l' => Permutation l l'
  | Err e, Err e' => e = e'
  | Panic, Panic => True
  | _, _ => False
  end.
Proof. exact get_intents_order. Qed.
Print Assumptions C07_hash_order.

Example C07_case :
  exists l1 l2,
    Forall2 (fun p l => ip_get_intents p demo_input = Ok l) [demo_p0; demo_p1; demo_p2] [[]; l1; l2] /\
    NoDup (map ir_name l1) /\ NoDup (map ir_name l2) /\
    (forall r, In r (l1 ++ l2) -> fis_nan (ir_score r) = false) /\
    omap (map ir_name) (get_intents id_order (demo_engine [demo_p0; demo_p1; demo_p2]) demo_input)
    = Ok [Some $"setTemp"; Some $"lightOn"; None].
Proof.
  eexists _, _. split; [repeat constructor|].
  split; [|split; [|split]].
  - simpl. repeat constructor; simpl; intuition discriminate.
  - simpl. repeat constructor; simpl; intuition discriminate.
  - simpl. intuition (subst; vm_compute; reflexivity).
  - vm_compute. reflexivity.
Qed.

(** ** C08 *)
Theorem C08_get_slots_answer : forall x en input intent salts out,
  get_slots_with_alternatives x en input intent salts = Ok out ->
  (exists pre p post slots,
      en_parsers en = pre ++ p :: post /\
      (forall q, In q pre -> ip_get_slots q input intent = Ok []) /\
      ip_get_slots p input intent = Ok slots /\ slots <> [] /\
      resolve_slots x en input slots salts = Ok out) \/
  ((forall q, In q (en_parsers en) -> ip_get_slots q input intent = Ok []) /\ out = []).
Proof. exact (fun x en input intent salts => get_slots_loop_ok x en input intent salts (en_parsers en)). Qed.
Print Assumptions C08_get_slots_answer.

(** [get_slots] asks for no slot alternatives. *)
Theorem C08_get_slots_is_zero_alternatives : forall x en input intent,
  get_slots x en input intent = get_slots_with_alternatives x en input intent 0.
Proof. exact (fun x en input intent => eq_refl). Qed.
Print Assumptions C08_get_slots_is_zero_alternatives.

Theorem C08_first_parser_with_slots : forall x en input intent salts pre p post slots,
  (forall q, In q pre -> ip_get_slots q input intent = Ok []) ->
  ip_get_slots p input intent = Ok slots -> slots <> [] ->
  get_slots_with_alternatives x (mkEngine (en_dataset en) (pre ++ p :: post) (en_resources en)) input intent salts
  = resolve_slots x (mkEngine (en_dataset en) (pre ++ p :: post) (en_resources en)) input slots salts.
Proof. exact (fun x en input intent salts pre p post slots => get_slots_loop_first x _ input intent salts pre p post slots). Qed.
Print Assumptions C08_first_parser_with_slots.

Theorem C08_no_slots : forall x en input intent salts,
  (forall q, In q (en_parsers en) -> ip_get_slots q input intent = Ok []) ->
  get_slots_with_alternatives x en input intent salts = Ok [].
Proof. exact (fun x en input intent salts => get_slots_loop_none x en input intent salts (en_parsers en)). Qed.
Print Assumptions C08_no_slots.

Theorem C08_reached_failure : forall x en input intent salts pre p post,
  (forall q, In q pre -> ip_get_slots q input intent = Ok []) ->
  is_ok (ip_get_slots p input intent) = false ->
  get_slots_with_alternatives x (mkEngine (en_dataset en) (pre ++ p :: post) (en_resources en)) input intent salts
  = match ip_get_slots p input intent with Err e => Err e | _ => Panic end.
Proof. exact (fun x en input intent salts pre p post => get_slots_loop_fail x _ input intent salts pre p post). Qed.
Print Assumptions C08_reached_failure.

Example C08_case :
  (forall q, In q [demo_p2; demo_p0] -> ip_get_slots q demo_input $"lightOn" = Ok []) /\
  exists out, get_slots demo_ext (demo_engine [demo_p2; demo_p0; demo_p1; demo_bad]) demo_input $"lightOn" = Ok out
              /\ map sl_raw_value out = [$"kitchen"].
Proof.
  split.
  - intros q [<-|[<-|[]]]; reflexivity.
  - eexists (get_ok [] _). split; [apply get_ok_eq|]; vm_compute; reflexivity.
Qed.

(** ** C09 *)
Theorem C09_slots_not_altered : forall x en text slots alts out,
  resolve_slots x en text slots alts = Ok out ->
  exists kept, subseq kept slots /\ Forall2 resolves kept out.
Proof. exact resolve_slots_subseq. Qed.
Print Assumptions C09_slots_not_altered.

(** The non extensible colour is unknown to the entity parser: its slot is dropped. *)
Example C09_case :
  exists out, resolve_slots demo_ext (demo_engine []) $"mauve in attic" [slot_mauve; slot_attic] 0 = Ok out /\
              map sl_raw_value out = [$"attic"].
Proof. eexists (get_ok [] _). split; [apply get_ok_eq|]; vm_compute; reflexivity. Qed.

(** ** C10 *)
Theorem C10_extensible_slots_kept : forall x en text slots alts out slot,
  resolve_slots x en text slots alts = Ok out -> In slot slots ->
  sget (is_entity slot) (ds_entities (en_dataset en)) = Some true ->
  exists s, In s out /\ resolves slot s.
Proof. exact extensible_kept. Qed.
Print Assumptions C10_extensible_slots_kept.

Theorem C10_custom_slots : forall x en text slots alts out,
  resolve_slots x en text slots alts = Ok out -> slots <> [] ->
  exists scope ces opts,
    rs_custom (en_resources en) text (Some scope) alts = Ok ces /\
    (forall e, In e scope <-> exists s, In s slots /\ is_entity s = e /\ x_kind_from_str x e = None) /\
    out = present opts /\
    Forall2 (fun slot o =>
      forall ext, sget (is_entity slot) (ds_entities (en_dataset en)) = Some ext ->
        (o = None <-> ext = false /\ (forall e, ~ found_at_range ces slot e) /\
                      (forall e, ~ matches_whole_slot (rs_custom (en_resources en)) alts slot e)) /\
        (forall s, o = Some s -> ext = false ->
           exists e, (found_at_range ces slot e \/
                      matches_whole_slot (rs_custom (en_resources en)) alts slot e) /\
                     sl_value s = SVCustom (ce_resolved e) /\
                     sl_alternatives s = map SVCustom (ce_alternatives e)))
      slots opts.
Proof. exact custom_slots_char. Qed.
Print Assumptions C10_custom_slots.

Example C10_case :
  exists out, resolve_slots demo_ext (demo_engine []) $"mauve in attic" [slot_mauve; slot_attic] 0 = Ok out /\
    In slot_attic [slot_mauve; slot_attic] /\
    sget (is_entity slot_attic) (ds_entities (en_dataset (demo_engine []))) = Some true /\
    sget (is_entity slot_mauve) (ds_entities (en_dataset (demo_engine []))) = Some false.
Proof.
  eexists (get_ok [] _). split; [apply get_ok_eq; vm_compute; reflexivity|].
  repeat split; try (vm_compute; reflexivity). simpl. auto.
Qed.

(** ** C57 *)
Theorem C57_values_of_slots : forall x en text slots alts out,
  resolve_slots x en text slots alts = Ok out -> slots <> [] ->
  exists kinds names bes ces opts,
    rs_builtin (en_resources en) text (Some kinds) false alts = Ok bes /\
    rs_custom (en_resources en) text (Some names) alts = Ok ces /\
    (forall k, In k kinds <-> exists s, In s slots /\ x_kind_from_str x (is_entity s) = Some k) /\
    (forall e, In e names <-> exists s, In s slots /\ is_entity s = e /\ x_kind_from_str x e = None) /\
    out = present opts /\
    Forall2 (fun slot o =>
      match sget (is_entity slot) (ds_entities (en_dataset en)) with
      | Some ext =>
          (exists e, first_such (custom_at slot) ces e /\
             o = Some (with_value slot (SVCustom (ce_resolved e)) (map SVCustom (ce_alternatives e)))) \/
          ((forall e, In e ces -> ~ custom_at slot e) /\
           exists found, rs_custom (en_resources en) (is_value slot) (Some [is_entity slot]) alts = Ok found /\
           ((exists before e, found = before ++ [e] /\ length (ce_value e) = length (is_value slot) /\
               o = Some (with_value slot (SVCustom (ce_resolved e)) (map SVCustom (ce_alternatives e)))) \/
            ((forall before e, found = before ++ [e] -> length (ce_value e) <> length (is_value slot)) /\
             o = if ext then Some (with_value slot (SVCustom (is_value slot)) []) else None)))
      | None =>
          exists k, x_kind_of_identifier x (is_entity slot) = Some k /\
          ((exists e, first_such (builtin_at k slot) bes e /\
              o = Some (with_value slot (be_entity e) (be_alternatives e))) \/
           ((forall e, In e bes -> ~ builtin_at k slot e) /\
            exists found, rs_builtin (en_resources en) (is_value slot) (Some [k]) false alts = Ok found /\
            ((exists before e, found = before ++ [e] /\
                o = Some (with_value slot (be_entity e) (be_alternatives e))) \/
             (found = [] /\ o = None))))
      end) slots opts.
Proof. exact slot_values. Qed.
Print Assumptions C57_values_of_slots.

Theorem C57_unknown_entity_fails : forall x en text slots alts slot,
  In slot slots ->
  sget (is_entity slot) (ds_entities (en_dataset en)) = None ->
  x_kind_of_identifier x (is_entity slot) = None ->
  is_ok (resolve_slots x en text slots alts) = false.
Proof. exact unknown_kind_fails. Qed.
Print Assumptions C57_unknown_entity_fails.

(** The number is found in place, the other one, in "x 12", only by the second search. *)
Example C57_case :
  (exists out, resolve_slots demo_ext (demo_engine []) $"set 2 or 12 red" [slot_two; slot_tail; slot_mauve] 0 = Ok out /\
     map sl_value out = [SVBuiltin $"2"; SVBuiltin $"12"]) /\
  sget $"colour" (ds_entities (en_dataset (demo_engine []))) = None /\
  x_kind_of_identifier demo_ext $"colour" = None.
Proof.
  split; [|split; vm_compute; reflexivity].
  eexists (get_ok [] _). split; [apply get_ok_eq|]; vm_compute; reflexivity.
Qed.

(** ** C11 *)
Theorem C11_extract_slot : forall x en input intent slot,
  (~ known en intent -> exists e, extract_slot x en input intent slot = Err e) /\
  (forall mapping, sget intent (ds_slot_name_mappings (en_dataset en)) = Some mapping ->
     ((forall entity, ~ In (slot, entity) mapping) ->
        exists e, extract_slot x en input intent slot = Err e) /\
     (forall entity, sget slot mapping = Some entity ->
        match sget entity (ds_entities (en_dataset en)) with
        | Some extensible =>
            (* custom entity *)
            forall found, rs_custom (en_resources en) input (Some [entity]) 0 = Ok found ->
            (forall before e, found = before ++ [e] ->
               extract_slot x en input intent slot =
               Ok (Some (mkSlot (ce_value e) (SVCustom (ce_resolved e))
                          (map SVCustom (ce_alternatives e)) (ce_range e) entity slot None))) /\
            (found = [] -> extensible = true ->
               extract_slot x en input intent slot =
               Ok (Some (mkSlot input (SVCustom input) [] (0, length input) entity slot None))) /\
            (found = [] -> extensible = false -> extract_slot x en input intent slot = Ok None)
        | None =>
            (* builtin entity *)
            (x_kind_of_identifier x entity = None ->
               exists e, extract_slot x en input intent slot = Err e) /\
            (forall k found, x_kind_of_identifier x entity = Some k ->
               rs_builtin (en_resources en) input (Some [k]) false 0 = Ok found ->
               (found = [] -> extract_slot x en input intent slot = Ok None) /\
               (forall e after, found = e :: after ->
                  extract_slot x en input intent slot =
                  Ok (Some (mkSlot (substring input (be_range e)) (be_entity e)
                             (be_alternatives e) (be_range e) entity slot None))))
        end)).
Proof. exact extract_spec. Qed.
Print Assumptions C11_extract_slot.

Example C11_case :
  omap (option_map sl_raw_value)
    (extract_slot demo_ext (demo_engine []) $"kitchen or bedroom" $"lightOn" $"room") = Ok (Some $"bedroom") /\
  omap (option_map sl_raw_value)
    (extract_slot demo_ext (demo_engine []) $"20 or 30" $"setTemp" $"degrees") = Ok (Some $"20") /\
  omap (option_map sl_raw_value)
    (extract_slot demo_ext (demo_engine []) $"in the attic" $"lightOn" $"room") = Ok (Some $"in the attic") /\
  extract_slot demo_ext (demo_engine []) $"mauve" $"lightOn" $"color" = Ok None /\
  extract_slot demo_ext (demo_engine []) $"mauve" $"lightOff" $"color" = Err EOther /\
  extract_slot demo_ext (demo_engine []) $"mauve" $"lightOn" $"size" = Err EOther.
Proof. repeat split; vm_compute; reflexivity. Qed.
