(** Proofs for C83: texts and rule based parsers. *)
From Coq Require Import String List NArith ZArith Bool Arith Lia Permutation.
From Verif Require Import Base Sorting F32 M_Types M_Utils M_Engine M_Det M_Lookup M_Features M_Filler M_Fs M_Json M_Load
  S_Base S_Rank S_Load S_Made S_Seeds S_Case P_Base P_Rank P_Rules P_Seeds P_SeedsRules.
Import ListNotations.
Local Open Scope list_scope.
Local Open Scope nat_scope.

(** ** Outcomes *)
Lemma out_bind {A B} (R : A -> A -> Prop) (S : B -> B -> Prop) m m' k k' :
  same_out R m m' -> (forall a a', R a a' -> same_out S (k a) (k' a')) -> same_out S (bind m k) (bind m' k').
Proof. destruct m, m'; simpl; auto; contradiction. Qed.
Lemma out_eq {A} (m m' : outcome A) : same_out eq m m' -> m = m'.
Proof. destruct m, m'; simpl; intros; subst; auto; contradiction. Qed.
Lemma out_refl {A} (R : A -> A -> Prop) m : (forall a, R a a) -> same_out R m m.
Proof. destruct m; simpl; auto. Qed.
Lemma out_impl {A} (R S : A -> A -> Prop) m m' : (forall a b, R a b -> S a b) -> same_out R m m' -> same_out S m m'.
Proof. destruct m, m'; simpl; auto. Qed.
Lemma out_mapM {A B} (R : A -> A -> Prop) (S : B -> B -> Prop) g g' : (forall a a', R a a' -> same_out S (g a) (g' a')) ->
  forall l l', Forall2 R l l' -> same_out (Forall2 S) (mapM g l) (mapM g' l').
Proof.
  intros H. induction 1 as [|a a' l l' Ra F IH]; simpl; [constructor|].
  eapply out_bind; [apply H; exact Ra|]. intros b b' Sb. eapply out_bind; [exact IH|]. intros bs bs' F'. constructor; auto.
Qed.
Lemma out_mapM_same {A B} (S : B -> B -> Prop) (g g' : A -> outcome B) l : (forall a, In a l -> same_out S (g a) (g' a)) ->
  same_out (Forall2 S) (mapM g l) (mapM g' l).
Proof.
  induction l as [|a l IH]; intros H; simpl; [constructor|].
  eapply out_bind; [apply H; left; auto|]. intros b b' Sb. eapply out_bind; [apply IH; intros; apply H; right; auto|].
  intros bs bs' F'. constructor; auto.
Qed.

Lemma filter_map_rel {A B} (R : A -> A -> Prop) (S : B -> B -> Prop) g g' l l' : (forall a a', R a a' -> opt_rel S (g a) (g' a')) ->
  Forall2 R l l' -> Forall2 S (filter_map g l) (filter_map g' l').
Proof.
  intros H. induction 1 as [|a a' l l' Ra F IH]; simpl; [constructor|]. specialize (H a a' Ra).
  destruct (g a), (g' a'); simpl in H; try contradiction; [constructor; auto|auto].
Qed.
Lemma map_rel {A B} (R : A -> A -> Prop) (S : B -> B -> Prop) g g' l l' : (forall a a', R a a' -> S (g a) (g' a')) ->
  Forall2 R l l' -> Forall2 S (map g l) (map g' l').
Proof. intros H. induction 1; simpl; constructor; auto. Qed.
Lemma map_rel_eq {A B} (R : A -> A -> Prop) (g g' : A -> B) l l' : (forall a a', R a a' -> g a = g' a') ->
  Forall2 R l l' -> map g l = map g' l'.
Proof. intros H. induction 1; simpl; f_equal; auto. Qed.
Lemma firstn_rel {A} (R : A -> A -> Prop) : forall n l l', Forall2 R l l' -> Forall2 R (firstn n l) (firstn n l').
Proof. induction n; intros l l' F; [constructor|]. destruct F; simpl; constructor; auto. Qed.
Lemma skipn_rel {A} (R : A -> A -> Prop) : forall n l l', Forall2 R l l' -> Forall2 R (skipn n l) (skipn n l').
Proof. induction n; intros l l' F; auto. destruct F; simpl; [constructor|auto]. Qed.
Lemma rel_length {A} (R : A -> A -> Prop) l l' : Forall2 R l l' -> length l = length l'.
Proof. induction 1; simpl; auto. Qed.
Lemma rel_refl {A} (R : A -> A -> Prop) : (forall a, R a a) -> forall l, Forall2 R l l.
Proof. intros H. induction l; constructor; auto. Qed.
Lemma existsb_rel {A} (R : A -> A -> Prop) g g' l l' : (forall a a', R a a' -> g a = g' a') -> Forall2 R l l' -> existsb g l = existsb g' l'.
Proof. intros H. induction 1; simpl; auto. f_equal; auto. Qed.
Lemma filter_rel {A} (R : A -> A -> Prop) g g' l l' : (forall a a', R a a' -> g a = g' a') -> Forall2 R l l' -> Forall2 R (filter g l) (filter g' l').
Proof. intros H. induction 1; simpl; auto. rewrite <- (H _ _ H0). destruct (g x); auto. Qed.
Lemma index_rel {A} (R : A -> A -> Prop) l l' : Forall2 R l l' -> forall i, same_out R (index l i) (index l' i).
Proof. unfold index. induction 1 as [|a a' l l' Ra F IH]; intros [|i]; simpl; auto. Qed.

(** ** Sorting *)
Lemma insert_rel {A} (R : A -> A -> Prop) leb leb' : (forall a a' b b', R a a' -> R b b' -> leb a b = leb' a' b') ->
  forall a a' l l', R a a' -> Forall2 R l l' -> Forall2 R (insert leb a l) (insert leb' a' l').
Proof.
  intros H a a' l l' Ra. induction 1 as [|b b' l l' Rb F IH]; simpl; [constructor; auto|].
  rewrite <- (H a a' b b' Ra Rb). destruct (leb a b); constructor; auto.
Qed.
Lemma isort_rel {A} (R : A -> A -> Prop) leb leb' l l' : (forall a a' b b', R a a' -> R b b' -> leb a b = leb' a' b') ->
  Forall2 R l l' -> Forall2 R (isort leb l) (isort leb' l').
Proof. intros H. induction 1; simpl; [constructor|]. eapply insert_rel; eauto. Qed.
Lemma sort_key_rel {A} (R : A -> A -> Prop) key l l' : (forall a a', R a a' -> key a = key a') ->
  Forall2 R l l' -> Forall2 R (sort_by_key key l) (sort_by_key key l').
Proof. intros H. apply isort_rel. intros a a' b b' Ra Rb. rewrite (H _ _ Ra), (H _ _ Rb). reflexivity. Qed.
Lemma sort_desc_rel {A} (R : A -> A -> Prop) score l l' : (forall a a', R a a' -> score a = score a') ->
  Forall2 R l l' -> same_out (Forall2 R) (sort_desc score l) (sort_desc score l').
Proof.
  intros H F. unfold sort_desc. rewrite <- (rel_length _ _ _ F).
  rewrite <- (existsb_rel R (fun a => fis_nan (score a)) (fun a => fis_nan (score a)) l l'); auto.
  - destruct (_ && _); [exact I|]. simpl. apply isort_rel; auto. intros a a' b b' Ra Rb. rewrite (H _ _ Ra), (H _ _ Rb). reflexivity.
  - intros a a' Ra. rewrite (H _ _ Ra). reflexivity.
Qed.
Lemma dedup_rel {A} (R : A -> A -> Prop) ov : (forall a a' b b', R a a' -> R b b' -> ov a b = ov a' b') ->
  forall l l', Forall2 R l l' -> forall k k', Forall2 R k k' -> Forall2 R (dedup_loop ov k l) (dedup_loop ov k' l').
Proof.
  intros H. induction 1 as [|a a' l l' Ra F IH]; intros k k' Fk; simpl; auto.
  rewrite <- (existsb_rel R (fun d => ov d a) (fun d => ov d a') k k'); auto.
  destruct (existsb _ k); apply IH; auto. apply Forall2_app; auto.
Qed.

(** ** Texts *)
Section Texts.
  Context (x : Ext).
  Notation alike := (same_text x).

  Lemma letter_refl c : same_letter x c c.
  Proof. left. reflexivity. Qed.
  Lemma letter_bytes c c' : same_letter x c c' -> utf8_len c = utf8_len c'.
  Proof. intros [->|(_ & H & _)]; auto. Qed.
  Lemma text_refl s : alike s s.
  Proof. apply rel_refl, letter_refl. Qed.
  Lemma text_app a a' b b' : alike a a' -> alike b b' -> alike (a ++ b) (a' ++ b').
  Proof. apply Forall2_app. Qed.
  Lemma text_length s s' : alike s s' -> length s = length s'.
  Proof. apply rel_length. Qed.
  Lemma text_substring s s' r : alike s s' -> alike (substring s r) (substring s' r).
  Proof. intros H. apply firstn_rel, skipn_rel, H. Qed.
  Lemma text_suffix s s' i : alike s s' -> alike (suffix_from s i) (suffix_from s' i).
  Proof. intros H. apply skipn_rel, H. Qed.
  Lemma text_join sep l l' : Forall2 alike l l' -> alike (join sep l) (join sep l').
  Proof.
    induction 1 as [|s s' l l' Hs F IH]; simpl; [constructor|]. destruct F; auto.
    apply text_app; auto. apply text_app; [apply text_refl|exact IH].
  Qed.
  Lemma text_bytes s s' : alike s s' -> byte_len s = byte_len s'.
  Proof. induction 1 as [|c c' s s' Hc F IH]; simpl; auto. rewrite (letter_bytes _ _ Hc), IH. reflexivity. Qed.
  Lemma text_char_index s s' : alike s s' -> forall b, char_index s b = char_index s' b.
  Proof.
    induction 1 as [|c c' s s' Hc F IH]; intros b; simpl; auto. destruct (b =? 0); auto. rewrite (letter_bytes _ _ Hc), IH. reflexivity.
  Qed.
  Lemma text_char_range s s' r : alike s s' -> convert_to_char_range s r = convert_to_char_range s' r.
  Proof. intros H. unfold convert_to_char_range. rewrite !(text_char_index _ _ H). reflexivity. Qed.
  Lemma text_boundary s s' : alike s s' -> forall b, boundary s b = boundary s' b.
  Proof.
    induction 1 as [|c c' s s' Hc F IH]; intros b; cbn [boundary]; auto. destruct (b =? 0); auto.
    rewrite (letter_bytes _ _ Hc), IH. reflexivity.
  Qed.
  Lemma text_slice s s' r : alike s s' -> same_out alike (byte_slice s r) (byte_slice s' r).
  Proof.
    intros H. unfold byte_slice. rewrite <- !(text_boundary _ _ H). destruct (boundary s (rstart r)); [|exact I].
    destruct (boundary s (rend r)); [|exact I]. destruct (_ <=? _); [|exact I]. apply text_substring, H.
  Qed.

  (** ** Slots and results of the parsers *)
  Definition same_internal (s s' : InternalSlot) : Prop :=
    is_range s = is_range s' /\ is_entity s = is_entity s' /\ is_slot_name s = is_slot_name s' /\ alike (is_value s) (is_value s').
  Definition same_result (r r' : InternalParsingResult) : Prop :=
    pr_intent r = pr_intent r' /\ Forall2 same_internal (pr_slots r) (pr_slots r').

  Lemma result_refl r : same_result r r.
  Proof. split; auto. apply rel_refl. intros s. repeat split. apply text_refl. Qed.
  Lemma weight_rel r r' : same_result r r' -> result_weight r = result_weight r'.
  Proof. intros [_ F]. unfold result_weight. rewrite (rel_length _ _ _ F). reflexivity. Qed.
  Lemma rank_rel n ms ms' : Forall2 same_result ms ms' -> same_out (Forall2 same_result) (rank_results n ms) (rank_results n ms').
  Proof.
    intros F. unfold rank_results. rewrite <- (map_rel_eq same_result result_weight result_weight ms ms' weight_rel F).
    set (t := fsum _). eapply out_bind.
    - apply sort_desc_rel with (R := same_result); [intros a a' [-> _]; reflexivity|].
      eapply map_rel; [|exact F]. intros a a' Ra. rewrite (weight_rel _ _ Ra). destruct Ra as [Ei Fs]. split; simpl; [rewrite Ei; reflexivity|exact Fs].
    - intros s s' Fs. simpl. apply firstn_rel, Fs.
  Qed.
  Lemma answer_rel t t' : Forall2 same_result t t' -> same_result (answer_of t) (answer_of t').
  Proof.
    intros [|r r1 tl tl1 Hr F]; simpl; [apply result_refl|]. pose proof (proj1 Hr) as E. rewrite <- E.
    destruct (fle _ _); auto. apply result_refl.
  Qed.
  Lemma intents_rel t t' : Forall2 same_result t t' -> map pr_intent t = map pr_intent t'.
  Proof. apply map_rel_eq. intros a a' [E _]. exact E. Qed.

  Section Libraries.
    Hypothesis HL : forall s s', alike s s' -> x_lower x s = x_lower x s'.
    Hypothesis HN : forall s s', alike s s' -> x_normalize x s = x_normalize x s'.
    Definition same_token (t t' : token) : Prop :=
      tk_range t = tk_range t' /\ tk_char_range t = tk_char_range t' /\ alike (tk_value t) (tk_value t').
    Hypothesis HT : forall l s s', alike s s' -> Forall2 same_token (x_tokenize x l s) (x_tokenize x l s').
    Hypothesis HW : forall l s s', alike s s' -> Forall2 alike (x_tokenize_light x l s) (x_tokenize_light x l s').

    Definition blind_resources (res : Resources) : Prop :=
      (forall s s' k c n, alike s s' -> rs_builtin res s k c n = rs_builtin res s' k c n) /\
      (forall s s' k n, alike s s' -> rs_custom res s k n = rs_custom res s' k n).

    (** ** Deterministic parser *)
    Lemma preprocess_rel dp s s' i : alike s s' -> same_out alike (det_preprocess x dp s i) (det_preprocess x dp s' i).
    Proof.
      intros H. unfold det_preprocess. rewrite <- (text_length _ _ H). set (stop := stop_words_of _ _ _).
      eapply out_bind with (R := fun a a' => alike (fst a) (fst a') /\ snd a = snd a').
      - assert (G : forall ts ts', Forall2 same_token ts ts' -> forall st st',
            same_out (fun a a' => alike (fst a) (fst a') /\ snd a = snd a') st st' ->
            same_out (fun a a' => alike (fst a) (fst a') /\ snd a = snd a')
              (fold_left (preprocess_step x stop) ts st) (fold_left (preprocess_step x stop) ts' st')).
        { induction 1 as [|t t' ts ts' (T1 & T2 & T3) F IH]; intros st st' Hs; simpl; auto. apply IH. unfold preprocess_step.
          eapply out_bind; [exact Hs|]. intros a a' [Ha Ea]. rewrite <- Ea, <- T2, <- (HN _ _ T3), <- (text_length _ _ T3).
          destruct (usub _ _); simpl; auto. split; auto. apply text_app; auto. apply text_app; [apply text_refl|].
          destruct (smem _ _); [apply text_refl|exact T3]. }
        apply G; [apply HT, H|]. simpl. split; [constructor|reflexivity].
      - intros a a' [Ha Ea]. rewrite <- Ea. destruct (usub _ _); simpl; auto. apply text_app; [exact Ha|apply text_refl].
    Qed.

    Lemma replace_rel s s' es pl : alike s s' ->
      fst (replace_entities s es pl) = fst (replace_entities s' es pl) /\ alike (snd (replace_entities s es pl)) (snd (replace_entities s' es pl)).
    Proof.
      intros H. unfold replace_entities. destruct es as [|e es]; simpl; auto. set (d := sort_by_key _ _). clearbody d.
      assert (G : forall d st st', rp_map st = rp_map st' -> alike (rp_text st) (rp_text st') -> rp_off st = rp_off st' -> rp_cur st = rp_cur st' ->
        let a := fold_left (rep_step s pl) d st in let a' := fold_left (rep_step s' pl) d st' in
        rp_map a = rp_map a' /\ alike (rp_text a) (rp_text a') /\ rp_cur a = rp_cur a').
      { clear d. induction d as [|e0 d IH]; intros st st' E1 E2 E3 E4; simpl; auto. apply IH; unfold rep_step; simpl.
        - rewrite E1, E3. reflexivity.
        - rewrite E4. apply text_app; auto. apply text_app; [apply text_substring, H|apply text_refl].
        - rewrite E3. reflexivity.
        - reflexivity. }
      destruct (G d (mkRep [] [] 0%Z 0) (mkRep [] [] 0%Z 0)) as (G1 & G2 & G3); auto; [constructor|].
      split; auto. rewrite G3. apply text_app; [exact G2|apply text_suffix, H].
    Qed.

    Section Det.
      Context (dp : DetParser) (ord : HashOrder) (input input' : str).
      Hypothesis Hin : alike input input'.
      Hypothesis RB : blind_resources (dp_res dp).
      Hypothesis RX : forall i rs re s s', In (i, rs) (dp_regexes dp) -> In re rs -> alike s s' -> re s = re s'.

      Lemma group_slot_rel fmt fmt' i mp g : alike fmt fmt' ->
        same_out same_internal (slot_of_group dp input fmt i mp g) (slot_of_group dp input' fmt' i mp g).
      Proof.
        intros H. unfold slot_of_group. destruct (sindex _ (dp_groups dp)); simpl; auto. destruct (sindex i (dp_slots dp)); simpl; auto.
        destruct (sindex a a0); simpl; auto. rewrite <- (text_char_range _ _ (snd g) H). repeat split. apply text_substring, Hin.
      Qed.
      Lemma dedup_slots_rel l sl sl' : Forall2 same_internal sl sl' ->
        Forall2 same_internal (deduplicate_overlapping_slots x l sl) (deduplicate_overlapping_slots x l sl').
      Proof.
        intros F. unfold deduplicate_overlapping_slots, deduplicate_overlapping_items. apply sort_key_rel.
        - intros a a' (-> & _). reflexivity.
        - apply dedup_rel; [intros a a' b b' (-> & _) (-> & _); reflexivity| |constructor]. apply sort_key_rel; auto.
          intros a a' (_ & _ & _ & E). unfold slot_sort_key. rewrite <- (rel_length _ _ _ (HT l _ _ E)), <- (text_length _ _ E). reflexivity.
      Qed.
      Lemma matching_rel fmt fmt' re i mp : alike fmt fmt' -> re fmt = re fmt' ->
        same_out (opt_rel same_result) (get_matching_result x dp input fmt re i mp) (get_matching_result x dp input' fmt' re i mp).
      Proof.
        intros H E. unfold get_matching_result. rewrite <- E. destruct (re fmt) as [caps|]; [|exact I].
        eapply out_bind; [apply out_mapM_same; intros g _; apply group_slot_rel; exact H|].
        intros sl sl' F. simpl. split; auto. apply dedup_slots_rel, F.
      Qed.
      Lemma first_rel c c' cf cf' i mp : alike c c' -> alike cf cf' -> forall rs, (forall re s s', In re rs -> alike s s' -> re s = re s') ->
        same_out (opt_rel same_result) (first_match x dp input c cf i mp rs) (first_match x dp input' c' cf' i mp rs).
      Proof.
        intros Hc Hcf. induction rs as [|re rs IH]; intros B; simpl; auto.
        eapply out_bind; [apply matching_rel; auto; apply B; simpl; auto|]. intros [r|] [r'|] Hr; simpl in Hr; try contradiction; auto.
        eapply out_bind; [apply matching_rel; auto; apply B; simpl; auto|]. intros [r|] [r'|] Hr'; simpl in Hr'; try contradiction; auto.
        apply IH. intros re' s s' I. apply B. right. exact I.
      Qed.
      Lemma match_intent_rel i sc : same_out (opt_rel same_result) (match_intent x ord dp input i sc) (match_intent x ord dp input' i sc).
      Proof.
        unfold match_intent. rewrite <- (proj1 RB _ _ (Some (fst sc)) true 0 Hin). destruct (rs_builtin _ _ _ _ _) as [bes| |]; simpl; auto.
        rewrite <- (proj2 RB _ _ (Some (snd sc)) 0 Hin). destruct (rs_custom _ _ _ _) as [ces| |]; simpl; auto.
        set (es := _ ++ _). destruct (replace_rel input input' es (get_entity_placeholder x) Hin) as [E1 E2].
        destruct (replace_entities input es _) as [mp fmt]; destruct (replace_entities input' es _) as [mp' fmt']; cbn [fst snd] in *; subst mp'.
        eapply out_bind; [apply preprocess_rel; exact Hin|]. intros c c' Hc.
        eapply out_bind; [apply preprocess_rel; exact E2|]. intros cf cf' Hcf.
        destruct (sget i (dp_regexes dp)) as [rs|] eqn:Er; simpl; auto. apply first_rel; auto.
        intros re s s' Hre. apply (RX i rs); auto. apply sget_In, Er.
      Qed.
      Lemma det_matches_rel wl : same_out (Forall2 same_result) (det_matches x ord dp input wl) (det_matches x ord dp input' wl).
      Proof.
        unfold det_matches. eapply out_bind; [apply out_mapM_same; intros e _; apply match_intent_rel|].
        intros o o' F. simpl. eapply filter_map_rel; [|exact F]. auto.
      Qed.
      Lemma det_parse_rel wl : same_out same_result (det_parse x ord dp input wl) (det_parse x ord dp input' wl).
      Proof.
        unfold det_parse, det_parse_top. eapply out_bind.
        - eapply out_bind; [apply det_matches_rel|]. intros ms ms' F. apply rank_rel, F.
        - intros t t' F. simpl. apply answer_rel, F.
      Qed.
      Lemma det_intents_rel : det_get_intents x ord dp input = det_get_intents x ord dp input'.
      Proof.
        apply out_eq. unfold det_get_intents, det_parse_top. eapply out_bind.
        - eapply out_bind; [apply det_matches_rel|]. intros ms ms' F. apply rank_rel, F.
        - intros t t' F. simpl. rewrite (intents_rel _ _ F). reflexivity.
      Qed.
      Lemma det_slots_rel i : same_out (Forall2 same_internal) (det_get_slots x ord dp input i) (det_get_slots x ord dp input' i).
      Proof.
        unfold det_get_slots. destruct (smem _ _); [|reflexivity]. eapply out_bind; [apply det_parse_rel|]. intros r r' [_ F]. exact F.
      Qed.
    End Det.

    (** ** Lookup parser *)
    Lemma lookup_preprocess_rel lp s s' i : alike s s' -> lookup_preprocess x lp s i = lookup_preprocess x lp s' i.
    Proof.
      intros H. unfold lookup_preprocess. apply HL, text_join. apply filter_rel; [|apply HW, H].
      intros a a' Ha. rewrite (HN _ _ Ha). reflexivity.
    Qed.
    Lemma placeholders_rel s s' es : alike s s' -> alike (replace_entities_with_placeholders x s es) (replace_entities_with_placeholders x s' es).
    Proof.
      intros H. unfold replace_entities_with_placeholders. destruct es as [|e es]; auto. generalize (e :: es) as l. clear e es.
      intros l. generalize 0. induction l as [|e l IH]; intros n; cbn [replace_loop]; [apply text_suffix, H|].
      apply text_app; [apply text_substring, H|]. apply text_app; [apply text_refl|apply IH].
    Qed.

    Section Lookup.
      Context (lp : LookupParser) (ord : HashOrder) (input input' : str).
      Hypothesis Hin : alike input input'.
      Hypothesis RB : blind_resources (lp_res lp).

      Lemma candidates_rel wl : get_candidates x lp input wl = get_candidates x lp input' wl.
      Proof.
        unfold get_candidates. f_equal. apply mapM_ext. intros g _. unfold group_candidates.
        destruct (allowed_group wl (gs_intents g)) as [|a gr]; auto.
        assert (E : get_all_entities x lp input (gs_scope g) = get_all_entities x lp input' (gs_scope g)).
        { unfold get_all_entities. destruct (mapM _ _) as [kinds| |]; auto. simpl.
          rewrite <- (proj1 RB _ _ (Some kinds) true 0 Hin). destruct (rs_builtin _ _ _ _ _); auto. simpl.
          rewrite <- (proj2 RB _ _ (Some (es_custom (gs_scope g))) 0 Hin). reflexivity. }
        rewrite <- E. destruct (get_all_entities _ _ _ _); auto. cbn [bind]. f_equal. apply flat_map_ext. intros es. cbv zeta.
        apply flat_map_ext. intros i. rewrite (lookup_preprocess_rel lp _ _ i Hin).
        rewrite (lookup_preprocess_rel lp _ _ i (placeholders_rel _ _ es Hin)). reflexivity.
      Qed.
      Lemma candidate_rel wl c : same_out (opt_rel same_result) (lookup_candidate x lp input wl c) (lookup_candidate x lp input' wl c).
      Proof.
        unfold lookup_candidate. destruct (hget _ _ _) as [out|]; [|exact I]. unfold parse_map_output.
        destruct (index_i32 _ _) as [i| |]; simpl; auto. destruct (match wl with Some _ => _ | None => _ end); [|exact I].
        eapply out_bind.
        - apply out_mapM_same with (S := same_internal). intros se _. destruct (index_i32 _ (fst se)); simpl; auto.
          repeat split. apply text_substring, Hin.
        - intros sl sl' F. simpl. split; auto.
      Qed.
      Definition same_group (g g' : str * list InternalParsingResult) : Prop := fst g = fst g' /\ Forall2 same_result (snd g) (snd g').
      Lemma group_add_rel k r r' : same_result r r' -> forall m m', Forall2 same_group m m' -> Forall2 same_group (group_add k r m) (group_add k r' m').
      Proof.
        intros Hr. induction 1 as [|[k1 v] [k2 v'] m m' [E V] F IH]; simpl in *; [constructor; [split; simpl; auto|constructor]|].
        subst k2. destruct (str_eqb k k1); constructor; auto; split; simpl; auto. apply Forall2_app; auto.
      Qed.
      Lemma group_rel rs rs' : Forall2 same_result rs rs' -> Forall2 same_group (group_results rs) (group_results rs').
      Proof.
        intros F. unfold group_results. assert (G : Forall2 same_group [] []) by constructor. revert G. generalize (@nil (str * list InternalParsingResult)) at 1 3 as m.
        generalize (@nil (str * list InternalParsingResult)) as m'. induction F as [|r r' rs rs' Hr F IH]; intros m' m G; simpl; auto.
        apply IH. rewrite <- (proj1 Hr). destruct (ir_name _); auto. apply group_add_rel; auto.
      Qed.
      Lemma last_max_rel rs rs' : Forall2 same_result rs rs' -> opt_rel same_result (last_max rs) (last_max rs').
      Proof.
        intros F. unfold last_max. assert (G : opt_rel same_result None None) by exact I. revert G. generalize (@None InternalParsingResult) at 1 3 as m.
        generalize (@None InternalParsingResult) as m'. induction F as [|r r' rs rs' Hr F IH]; intros m' m G; simpl; auto.
        apply IH. destruct m, m'; simpl in G; try contradiction; simpl; auto. rewrite <- (weight_rel _ _ G), <- (weight_rel _ _ Hr).
        destruct (fle _ _); auto.
      Qed.
      Lemma lookup_matches_rel wl : same_out (fun ms ms' => exists k, Forall2 same_result ms k /\ Permutation k ms')
        (lookup_matches x ord lp input wl) (lookup_matches x ord lp input' wl).
      Proof.
        unfold lookup_matches. rewrite <- candidates_rel. destruct (get_candidates _ _ _ _) as [cs| |]; simpl; auto.
        eapply out_bind; [apply out_mapM_same; intros c _; apply candidate_rel|]. intros o o' F. simpl.
        assert (G : Forall2 same_group (group_results (filter_map (fun o => o) o)) (group_results (filter_map (fun o => o) o'))).
        { apply group_rel. eapply filter_map_rel; [|exact F]. auto. }
        destruct (Permutation_Forall2 (reorder_perm ord _) G) as (g & P & F').
        exists (filter_map (fun kv => last_max (snd kv)) g). split.
        - eapply filter_map_rel; [|exact F']. intros a a' [_ H]. apply last_max_rel, H.
        - apply filter_map_perm. eapply perm_trans; [apply Permutation_sym; exact P|]. apply reorder_perm.
      Qed.
      Lemma countable_rel ms k : Forall2 same_result ms k -> countable ms -> countable k.
      Proof.
        intros F C r Hr. destruct (Forall2_In_r _ _ _ _ F Hr) as (r0 & H0 & [_ F0]). specialize (C r0 H0). unfold slot_count in *.
        rewrite <- (rel_length _ _ _ F0). exact C.
      Qed.
      Lemma lookup_parse_rel wl : (forall ms, lookup_matches x ord lp input wl = Ok ms -> countable ms /\ length ms <= 2) ->
        same_out same_result (lookup_parse x ord lp input wl) (lookup_parse x ord lp input' wl).
      Proof.
        intros H. pose proof (lookup_matches_rel wl) as M. unfold lookup_parse, lookup_parse_top.
        destruct (lookup_matches x ord lp input wl) as [ms| |], (lookup_matches x ord lp input' wl) as [ms'| |]; cbn [same_out bind] in *; auto; try contradiction.
        destruct M as (k & F & P). destruct (H ms eq_refl) as [C L2].
        assert (Ck : countable k) by (eapply countable_rel; eauto). assert (Lk : length k <= 2) by (rewrite <- (rel_length _ _ _ F); exact L2).
        pose proof (short_perm k ms' P Ck Lk) as B.
        assert (A : same_out same_result (let* tops := rank_results 1 ms in Ok (answer_of tops)) (let* tops := rank_results 1 k in Ok (answer_of tops))).
        { eapply out_bind; [apply rank_rel; exact F|]. intros t t' Ft. apply answer_rel, Ft. }
        destruct (rank_rule k Ck) as (t & Et & _). rewrite Et in *. cbn [bind] in *.
        destruct (let* tops := rank_results 1 ms' in Ok (answer_of tops)); cbn [both] in B; try contradiction. subst a. exact A.
      Qed.
      Lemma lookup_slots_rel i : (forall ms, lookup_matches x ord lp input (Some [i]) = Ok ms -> countable ms /\ length ms <= 2) ->
        same_out (Forall2 same_internal) (lookup_get_slots x ord lp input i) (lookup_get_slots x ord lp input' i).
      Proof.
        intros H. unfold lookup_get_slots. destruct (smem _ _); [|reflexivity]. eapply out_bind; [apply lookup_parse_rel; exact H|]. intros r r' [_ F]. exact F.
      Qed.
    End Lookup.
  End Libraries.
End Texts.
