(** Proofs for C82: the rule based parsers. *)
From Coq Require Import String List NArith ZArith Bool Arith Lia Permutation FunctionalExtensionality.
From Verif Require Import Base Sorting F32 M_Types M_Utils M_Engine M_Det M_Lookup M_Feat M_Prob M_Features M_Crf M_Filler M_Cache M_Res M_Fs M_Json M_Load
  S_Base S_Utils S_Det S_Rank S_Rules S_Load S_Match S_Made S_Seeds P_Base P_Engine P_Feat P_Det P_Rank P_Rules P_Match P_MatchDet P_Seeds.
Import ListNotations.
Local Open Scope list_scope.
Local Open Scope nat_scope.

Definition ignores_order (res : Resources) : Prop :=
  (forall s k k' c n, Permutation k k' -> rs_builtin res s (Some k) c n = rs_builtin res s (Some k') c n) /\
  (forall s k k' n, Permutation k k' -> rs_custom res s (Some k) n = rs_custom res s (Some k') n).

(** Two filters that let the same intents pass. *)
Definition same_filter (a b : option (list str)) : Prop :=
  match a, b with
  | Some l, Some l' => forall i, smem i l = smem i l'
  | None, None => True
  | _, _ => False
  end.
Lemma same_filter_refl a : same_filter a a.
Proof. destruct a; simpl; auto. Qed.

Lemma unique_perm (l l' : list str) : Permutation l l' -> Permutation (unique str_eqb l) (unique str_eqb l').
Proof.
  intros P. apply NoDup_Permutation; try apply (unique_NoDup _ str_eqb_spec).
  intros a. rewrite !(unique_In _ str_eqb_spec). split; apply Permutation_in; auto using Permutation_sym.
Qed.

Lemma Forall2_filter_key {K V W} (R : V -> W -> Prop) (p p' : K -> bool) (l : list (K * V)) (l' : list (K * W)) :
  (forall k, p k = p' k) -> Forall2 (entry_rel R) l l' ->
  Forall2 (entry_rel R) (filter (fun e => p (fst e)) l) (filter (fun e => p' (fst e)) l').
Proof.
  intros H F. induction F as [|a b l l' [E Rv] F IH]; simpl; [constructor|]. rewrite E, H. destruct (p' (fst b)); auto.
  constructor; auto. split; auto.
Qed.

(** ** Ranking *)
Lemma short_perm (ms ms' : list InternalParsingResult) : Permutation ms ms' -> countable ms -> length ms <= 2 ->
  both eq (let* tops := rank_results 1 ms in Ok (answer_of tops)) (let* tops := rank_results 1 ms' in Ok (answer_of tops)).
Proof.
  intros P C L. assert (C' : countable ms') by (intros m Hm; apply C; eapply Permutation_in; [apply Permutation_sym|]; eauto).
  destruct (rank_rule ms C) as (t & Et & _). destruct (rank_rule ms' C') as (t' & Et' & _). rewrite Et, Et'. cbn [bind both].
  exact (rule_parse_perm ms ms' _ t t' C L P Et Et' eq_refl).
Qed.

Lemma at_most_two_length (P : str -> Prop) (ms : list InternalParsingResult) :
  NoDup (map (fun r => ir_name (pr_intent r)) ms) -> (forall r, In r ms -> exists i, ir_name (pr_intent r) = Some i /\ P i) ->
  at_most_two P -> length ms <= 2.
Proof.
  intros N H T. destruct ms as [|a [|b [|c ms]]]; simpl; try lia. exfalso.
  destruct (H a) as (i & Ei & Pi); [simpl; auto|]. destruct (H b) as (j & Ej & Pj); [simpl; auto|].
  destruct (H c) as (k & Ek & Pk); [simpl; auto|]. simpl in N. rewrite Ei, Ej, Ek in N.
  inversion N as [|? ? N1 N2]; subst. inversion N2 as [|? ? N3 _]; subst.
  destruct (T i j k Pi Pj Pk) as [->|[->| ->]]; [apply N1|apply N1|apply N3]; simpl; auto.
Qed.

(** ** The deterministic parser *)
Definition same_scope (a b : list kind * list str) : Prop := Permutation (fst a) (fst b) /\ Permutation (snd a) (snd b).
Definition same_det (a b : DetParser) : Prop :=
  dp_lang a = dp_lang b /\ same_map eq (dp_regexes a) (dp_regexes b) /\ same_map eq (dp_groups a) (dp_groups b) /\
  same_map (same_map eq) (dp_slots a) (dp_slots b) /\
  (forall i w, smem w (stop_words_of (dp_stop a) (dp_specific_stop a) i) = smem w (stop_words_of (dp_stop b) (dp_specific_stop b) i)) /\
  same_map same_scope (dp_scopes a) (dp_scopes b) /\
  rs_builtin (dp_res a) = rs_builtin (dp_res b) /\ rs_custom (dp_res a) = rs_custom (dp_res b).

Lemma det_scope_perm x l l' : Permutation l l' -> same_scope (det_scope x l) (det_scope x l').
Proof. intros P. split; simpl; apply unique_perm, filter_map_perm, P. Qed.

Lemma specific_same (stop stop' : list str) wl wl' o o' :
  Permutation stop stop' -> same_map eq wl wl' ->
  forall i w, smem w (stop_words_of stop (reorder o (specific_stop_words stop wl)) i)
            = smem w (stop_words_of stop' (reorder o' (specific_stop_words stop' wl')) i).
Proof.
  intros P W i w. unfold specific_stop_words.
  assert (S : same_map (@Permutation str)
     (reorder o (map (fun iw => (fst iw, filter (fun w => negb (smem w (snd iw))) stop)) wl))
     (reorder o' (map (fun iw => (fst iw, filter (fun w => negb (smem w (snd iw))) stop')) wl'))).
  { apply same_map_reorder.
    apply (same_map_values eq (@Permutation str) (fun v => filter (fun w => negb (smem w v)) stop) (fun v => filter (fun w => negb (smem w v)) stop')).
    - intros a b <-. apply Permutation_filter'. exact P.
    - exact W. }
  apply (same_map_get str_eqb str_eqb_spec) with (k := i) in S. unfold stop_words_of, sget.
  destruct (hget str_eqb i _) as [a|], (hget str_eqb i _) as [b|]; try contradiction; apply smem_perm; auto.
Qed.

Section Det.
  Context (x : Ext) (L : Loader).

  Lemma both_det_new o1 o2 o3 o1' o2' o3' m m' r r' : same_res r r' -> same_det_model m m' ->
    both same_det (det_new x (ld_lang L) (ld_regex L) o1 o2 o3 m r) (det_new x (ld_lang L) (ld_regex L) o1' o2' o3' m' r').
  Proof.
    intros (R1 & R2 & _ & _ & _ & R6) (E1 & E2 & E3 & E4 & E5 & E6). unfold det_new. rewrite E1, E6. both_same.
    eapply both_bind with (R := same_map eq).
    - unfold compile_regexes.
      pose proof (both_mapM_perm (fun ip : str * list str => let* rs := mapM (ld_regex L) (snd ip) in Ok (fst ip, rs)) _ _ (same_map_perm _ _ E2)) as K.
      destruct (mapM _ (dm_patterns m)) as [rx| |] eqn:Ex; destruct (mapM _ (dm_patterns m')) as [rx'| |]; simpl in *; auto.
      apply perm_same_map; auto. unfold hkeys. rewrite (compile_keys (ld_regex L) _ _ Ex). apply (proj1 E2).
    - intros rx rx' _ _ X. simpl. unfold same_det. cbn. split; auto. split; [apply same_map_reorder; exact X|]. split; auto. split; auto.
      split; [|split; [|split; auto]].
      + apply specific_same; auto. destruct (dm_ignore_stop_words m'); auto.
      + apply same_map_reorder. apply (same_map_values (same_map eq) same_scope (det_scope x) (det_scope x)); [|exact E4].
        intros u v U. apply det_scope_perm, same_map_perm, U.
  Qed.

  Section Two.
    Context (ord ord' : HashOrder) (dp dp' : DetParser) (input : str).
    Hypothesis D : same_det dp dp'.
    Hypothesis Sets : ignores_order (dp_res dp).
    Hypothesis Bok : builtin_parser_ok (rs_builtin (dp_res dp)) input.
    Hypothesis Cok : custom_parser_ok (rs_custom (dp_res dp)) input.

    Lemma group_slot_same formatted i mp mp' g :
      (forall q, match mp with Some m => restore_range m q | None => q end = match mp' with Some m => restore_range m q | None => q end) ->
      slot_of_group dp input formatted i mp g = slot_of_group dp' input formatted i mp' g.
    Proof.
      intros H. destruct D as (_ & _ & D3 & D4 & _). unfold slot_of_group, sindex.
      rewrite (sget_res _ _ _ D3). destruct (sget _ (dp_groups dp')) as [sn|]; auto. cbn [bind].
      apply (same_map_get str_eqb str_eqb_spec) with (k := i) in D4. unfold sget at 1 3.
      destruct (hget str_eqb i (dp_slots dp)) as [ds|], (hget str_eqb i (dp_slots dp')) as [ds'|]; try contradiction; auto. cbn [bind].
      rewrite (sget_res _ _ _ D4). destruct (sget sn ds'); auto. cbn [bind]. rewrite H. reflexivity.
    Qed.
    Lemma matching_same formatted re i mp mp' :
      (forall q, match mp with Some m => restore_range m q | None => q end = match mp' with Some m => restore_range m q | None => q end) ->
      get_matching_result x dp input formatted re i mp = get_matching_result x dp' input formatted re i mp'.
    Proof.
      intros H. unfold get_matching_result. rewrite (proj1 D). destruct (re formatted); auto.
      rewrite (mapM_ext _ (slot_of_group dp' input formatted i mp')); [reflexivity|]. intros g _. apply group_slot_same. exact H.
    Qed.
    Lemma first_same c cf i mp mp' rs : (forall q, restore_range mp q = restore_range mp' q) ->
      first_match x dp input c cf i mp rs = first_match x dp' input c cf i mp' rs.
    Proof.
      intros H. induction rs as [|r rs IH]; simpl; auto.
      rewrite (matching_same c r i None None) by auto. destruct (get_matching_result x dp' input c r i None) as [[m|]| |]; auto. cbn [bind].
      rewrite (matching_same cf r i (Some mp) (Some mp')) by auto.
      destruct (get_matching_result x dp' input cf r i (Some mp')) as [[m|]| |]; auto.
    Qed.
    Lemma preprocess_same s i : det_preprocess x dp s i = det_preprocess x dp' s i.
    Proof.
      destruct D as (D1 & _ & _ & _ & D5 & _). unfold det_preprocess. rewrite D1.
      assert (E : preprocess_step x (stop_words_of (dp_stop dp) (dp_specific_stop dp) i)
                = preprocess_step x (stop_words_of (dp_stop dp') (dp_specific_stop dp') i)).
      { apply functional_extensionality. intros st. apply functional_extensionality. intros t. unfold preprocess_step. rewrite D5. reflexivity. }
      rewrite E. reflexivity.
    Qed.

    Definition scope_short (sc : list kind * list str) : Prop :=
      (Z.of_nat (length input) < 32768)%Z /\
      forall es mapping formatted, entities_found (dp_res dp) input sc es ->
        replace_entities input es (get_entity_placeholder x) = (mapping, formatted) -> (Z.of_nat (length formatted) < 32768)%Z.

    Lemma match_intent_same i sc sc' : same_scope sc sc' -> scope_short sc ->
      match_intent x ord dp input i sc = match_intent x ord' dp' input i sc'.
    Proof.
      intros [S1 S2] [T1 T2]. pose proof D as (_ & D2 & _ & _ & _ & _ & D7 & D8). destruct Sets as [B C]. unfold match_intent.
      rewrite <- D7, <- D8, <- (B _ _ _ _ _ S1), <- (C _ _ _ _ S2).
      destruct (rs_builtin (dp_res dp) input (Some (fst sc)) true 0) as [bes| |] eqn:Eb; auto. cbn [bind].
      destruct (rs_custom (dp_res dp) input (Some (snd sc)) 0) as [ces| |] eqn:Ec; auto. cbn [bind].
      set (es := map matched_of_builtin bes ++ map matched_of_custom ces).
      assert (EF : entities_found (dp_res dp) input sc es) by (exists bes, ces; auto).
      destruct (replace_entities input es (get_entity_placeholder x)) as [mapping formatted] eqn:RE.
      rewrite !preprocess_same. destruct (det_preprocess x dp' input i); auto. cbn [bind].
      destruct (det_preprocess x dp' formatted i); auto. cbn [bind].
      rewrite (sget_res _ _ _ D2). destruct (sget i (dp_regexes dp')); auto. cbn [ok_or bind].
      apply first_same. intros q. eapply restore_order_spec; eauto using found_ok.
    Qed.

    Hypothesis Short : forall i sc, In (i, sc) (dp_scopes dp) -> scope_short sc.

    Lemma det_matches_same f f' : same_filter f f' ->
      both (@Permutation _) (det_matches x ord dp input f) (det_matches x ord' dp' input f').
    Proof.
      intros Ff. pose proof D as (_ & _ & _ & D4 & _ & D6 & _). destruct D6 as (_ & m1 & F1 & P1).
      assert (Q : forall i, smem i (match f with Some l => l | None => hkeys (dp_slots dp) end)
                          = smem i (match f' with Some l => l | None => hkeys (dp_slots dp') end)).
      { intros i. destruct f, f'; simpl in Ff; try contradiction; auto. apply smem_perm. exact (same_map_keys _ _ _ D4). }
      set (c1 := filter (fun e => smem (fst e) (match f' with Some l => l | None => hkeys (dp_slots dp') end)) m1).
      assert (F2 : Forall2 (entry_rel same_scope) (considered dp f) c1).
      { unfold considered, c1. exact (Forall2_filter_key same_scope _ _ _ _ Q F1). }
      assert (P2 : Permutation c1 (considered dp' f')) by (unfold considered, c1; apply Permutation_filter'; exact P1).
      unfold det_matches. eapply both_bind with (R := @Permutation _).
      - assert (E : mapM (fun e => match_intent x ord dp input (fst e) (snd e)) (considered dp f)
                  = mapM (fun e => match_intent x ord' dp' input (fst e) (snd e)) c1).
        { assert (I : forall e, In e (considered dp f) -> scope_short (snd e)).
          { intros [i sc] H. apply considered_In in H as [H _]. exact (Short _ _ H). }
          clear - F2 I D Sets Bok Cok. revert I. induction F2 as [|a b l l' [E S] F IH]; intros I; simpl; auto.
          rewrite E, (match_intent_same _ _ _ S (I a (or_introl eq_refl))), IH; auto. intros e H. apply I. right. exact H. }
        rewrite E. apply both_mapM_perm. exact P2.
      - intros o o' _ _ P. simpl. apply filter_map_perm. exact P.
    Qed.

    Lemma det_parse_same f f' : same_filter f f' ->
      (forall ms, det_matches x ord dp input f = Ok ms -> countable ms /\ length ms <= 2) ->
      both eq (det_parse x ord dp input f) (det_parse x ord' dp' input f').
    Proof.
      intros Ff H. pose proof (det_matches_same f f' Ff) as M. unfold det_parse, det_parse_top.
      destruct (det_matches x ord dp input f) as [ms| |], (det_matches x ord' dp' input f') as [ms'| |]; cbn [both bind] in *; auto; try contradiction.
      destruct (H ms eq_refl). apply short_perm; auto.
    Qed.

    Lemma det_get_slots_same i :
      (forall ms, det_matches x ord dp input (Some [i]) = Ok ms -> countable ms /\ length ms <= 2) ->
      both eq (det_get_slots x ord dp input i) (det_get_slots x ord' dp' input i).
    Proof.
      intros H. pose proof D as (_ & D2 & _). unfold det_get_slots. rewrite (smem_perm i _ _ (same_map_keys _ _ _ D2)).
      destruct (smem i (hkeys (dp_regexes dp'))); [|exact I].
      eapply both_bind; [apply det_parse_same; [apply same_filter_refl|exact H]|]. intros a b _ _ ->. reflexivity.
    Qed.
  End Two.
End Det.

(** ** The lookup parser *)
Definition same_lookup (a b : LookupParser) : Prop :=
  lp_lang a = lp_lang b /\ lp_slots_names a = lp_slots_names b /\ lp_intents_names a = lp_intents_names b /\
  (forall h, hget Z.eqb h (lp_map a) = hget Z.eqb h (lp_map b)) /\
  (forall i w, smem w (stop_words_of (lp_stop a) (lp_specific_stop a) i) = smem w (stop_words_of (lp_stop b) (lp_specific_stop b) i)) /\
  lp_scopes a = lp_scopes b /\ rs_builtin (lp_res a) = rs_builtin (lp_res b) /\ rs_custom (lp_res a) = rs_custom (lp_res b).

Section Lookup.
  Context (x : Ext) (L : Loader).

  Lemma both_lookup_new o o' m m' r r' : same_res r r' -> same_lookup_model m m' ->
    both same_lookup (lookup_new (ld_lang L) o m r) (lookup_new (ld_lang L) o' m' r').
  Proof.
    intros (R1 & R2 & _ & _ & _ & R6) (E1 & E2 & E3 & E4 & E5 & E6 & E7). unfold lookup_new. rewrite E1, E7. both_same.
    simpl. unfold same_lookup. cbn. repeat (split; [assumption || reflexivity|]). split; [|split; [|split; [|split]]]; auto.
    - intros h. apply (same_map_get_eq Z.eqb Z.eqb_eq). exact E4.
    - apply specific_same; auto. destruct (lm_ignore_stop_words m'); auto.
  Qed.

  Section Two.
    Context (ord ord' : HashOrder) (lp lp' : LookupParser) (input : str).
    Hypothesis D : same_lookup lp lp'.

    Lemma lookup_preprocess_same s i : lookup_preprocess x lp s i = lookup_preprocess x lp' s i.
    Proof.
      destruct D as (D1 & _ & _ & _ & D5 & _). unfold lookup_preprocess. rewrite D1. do 2 f_equal. apply filter_ext. intros t. rewrite D5. reflexivity.
    Qed.
    Lemma candidates_same f f' : same_filter f f' -> get_candidates x lp input f = get_candidates x lp' input f'.
    Proof.
      intros Ff. pose proof D as (D1 & _ & _ & _ & D5 & D6 & D7 & D8). unfold get_candidates. rewrite D6.
      rewrite (mapM_ext _ (group_candidates x lp' input f')); [reflexivity|]. intros g _. unfold group_candidates.
      assert (A : allowed_group f (gs_intents g) = allowed_group f' (gs_intents g)).
      { unfold allowed_group. apply filter_ext. intros i. destruct f, f'; simpl in Ff; try contradiction; auto. }
      rewrite A. destruct (allowed_group f' (gs_intents g)) as [|i is]; auto.
      unfold get_all_entities. rewrite D7, D8. destruct (mapM _ (es_builtin (gs_scope g))); auto. cbn [bind].
      destruct (rs_builtin (lp_res lp') input (Some a) true 0); auto. cbn [bind].
      destruct (rs_custom (lp_res lp') input (Some (es_custom (gs_scope g))) 0); auto. cbn [bind]. f_equal.
      apply flat_map_ext. intros es. apply flat_map_ext. intros j. rewrite !lookup_preprocess_same. reflexivity.
    Qed.
    Lemma candidate_same f f' c : same_filter f f' -> lookup_candidate x lp input f c = lookup_candidate x lp' input f' c.
    Proof.
      intros Ff. pose proof D as (_ & D2 & D3 & D4 & _). unfold lookup_candidate. rewrite D4. destruct (hget Z.eqb _ (lp_map lp')); auto.
      unfold parse_map_output. rewrite D2, D3. destruct (index_i32 _ _) as [n| |]; auto. cbn [bind].
      destruct f, f'; simpl in Ff; try contradiction; auto. rewrite Ff. reflexivity.
    Qed.
    Lemma lookup_matches_same f f' : same_filter f f' ->
      both (@Permutation _) (lookup_matches x ord lp input f) (lookup_matches x ord' lp' input f').
    Proof.
      intros Ff. unfold lookup_matches. rewrite (candidates_same _ _ Ff). both_same.
      rewrite (mapM_ext (lookup_candidate x lp input f) (lookup_candidate x lp' input f')) by (intros; apply candidate_same; auto).
      both_same. simpl. apply filter_map_perm. eapply perm_trans; [apply Permutation_sym|]; apply reorder_perm.
    Qed.
    Lemma lookup_parse_same f f' : same_filter f f' ->
      (forall ms, lookup_matches x ord lp input f = Ok ms -> countable ms /\ length ms <= 2) ->
      both eq (lookup_parse x ord lp input f) (lookup_parse x ord' lp' input f').
    Proof.
      intros Ff H. pose proof (lookup_matches_same f f' Ff) as M. unfold lookup_parse, lookup_parse_top.
      destruct (lookup_matches x ord lp input f) as [ms| |], (lookup_matches x ord' lp' input f') as [ms'| |]; cbn [both bind] in *; auto; try contradiction.
      destruct (H ms eq_refl). apply short_perm; auto.
    Qed.
    Lemma lookup_get_slots_same i :
      (forall ms, lookup_matches x ord lp input (Some [i]) = Ok ms -> countable ms /\ length ms <= 2) ->
      both eq (lookup_get_slots x ord lp input i) (lookup_get_slots x ord' lp' input i).
    Proof.
      intros H. pose proof D as (_ & _ & D3 & _). unfold lookup_get_slots. rewrite D3.
      destruct (smem i (lp_intents_names lp')); [|exact I].
      eapply both_bind; [apply lookup_parse_same; [apply same_filter_refl|exact H]|]. intros a b _ _ ->. reflexivity.
    Qed.
  End Two.
End Lookup.
