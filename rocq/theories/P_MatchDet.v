(** What the deterministic parser recognises. *)
From Coq Require Import String List NArith ZArith Bool Arith Lia Permutation.
From Verif Require Import Base F32 M_Types M_Utils M_Engine M_Det M_Lookup S_Base S_Utils S_Engine S_Det S_Rank S_Rules
  P_Base P_F32 P_Engine P_Utils P_Det P_Rank P_Rules P_Weight S_Match P_Match.
Import ListNotations.

(** ** Capture groups *)
Lemma base_name_before n : base_name n (before_underscore n).
Proof.
  unfold base_name. induction n as [|c n [N E]]; simpl; [auto|].
  destruct (c =? 95)%N eqn:Q.
  - apply N.eqb_eq in Q. subst c. split; [auto|]. right. exists n. reflexivity.
  - apply N.eqb_neq in Q. split; [intros [H|H]; auto|]. destruct E as [E|(rest & E)].
    + left. f_equal. exact E.
    + right. exists rest. rewrite E at 1. reflexivity.
Qed.
Lemma base_name_eq n b : base_name n b <-> b = before_underscore n.
Proof.
  split; [|intros ->; apply base_name_before]. intros [N E]. revert n E. induction b as [|c b IH]; intros n E.
  - destruct E as [->|(rest & ->)]; reflexivity.
  - assert (Q : c <> 95%N) by (intros ->; apply N; left; reflexivity). apply N.eqb_neq in Q.
    assert (H : forall n', n' = b \/ (exists rest, n' = b ++ 95%N :: rest) -> b = before_underscore n').
    { intros n' E'. apply IH; auto. intros H. apply N. right. exact H. }
    destruct E as [->|(rest & ->)]; simpl; rewrite Q; f_equal; apply H; eauto.
Qed.

Definition found (intent : str) (v : outcome (option (list InternalSlot))) : outcome (option InternalParsingResult) :=
  let* o := v in Ok (option_map (fun s => mkIPR (mkIR (Some intent) f1) s) o).
Lemma found_inj i v w : found i v = found i w -> v = w.
Proof. destruct v as [[a|]|e|], w as [[b|]|e'|]; simpl; intros H; inversion H; reflexivity. Qed.

(** ** Scopes and texts *)
Lemma firsts_eq (seen l k : list str) : firsts seen l k <-> k = unique_aux str_eqb seen l.
Proof.
  revert seen k. induction l as [|a l IH]; intros seen k; simpl.
  - split; [intros H; inversion H; auto|intros ->; constructor].
  - destruct (memb str_eqb a seen) eqn:E.
    + assert (I : In a seen) by (apply smem_spec; exact E). rewrite <- IH.
      split; [intros H; inversion H; subst; auto; contradiction|apply firsts_seen; auto].
    + assert (I : ~ In a seen) by (apply smem_false; exact E). split.
      * intros H. inversion H; subst; [contradiction|]. f_equal. apply IH. auto.
      * intros ->. apply firsts_new; auto. apply IH. reflexivity.
Qed.
Lemma filter_map_flat {A B} (f : A -> option B) l : filter_map f l = flat_map (fun a => match f a with Some b => [b] | None => [] end) l.
Proof. induction l as [|a l IH]; simpl; auto. destruct (f a); simpl; rewrite IH; reflexivity. Qed.
Lemma scope_eq x decls scope : intent_scope x decls scope <-> scope = det_scope x decls.
Proof.
  unfold intent_scope, det_scope. rewrite !firsts_eq, !filter_map_flat. unfold unique.
  assert (E : flat_map (fun a => match match x_kind_of_identifier x (snd a) with Some _ => None | None => Some (snd a) end with
                 | Some b => [b] | None => [] end) decls
            = flat_map (fun d : str * str => match x_kind_of_identifier x (snd d) with Some _ => [] | None => [snd d] end) decls).
  { apply flat_map_ext. intros d. destruct (x_kind_of_identifier x (snd d)); reflexivity. }
  rewrite E. destruct scope as [a b]. cbn [fst snd]. split; [intros [-> ->]; reflexivity|intros H; inv H; auto].
Qed.

Lemma nth_error_eq {A} (l k : list A) : length l = length k -> (forall i, i < length l -> nth_error l i = nth_error k i) -> l = k.
Proof.
  revert k. induction l as [|a l IH]; intros [|b k] L H; try discriminate; auto. f_equal.
  - assert (Q := H 0 ltac:(simpl; lia)). simpl in Q. congruence.
  - apply IH; [simpl in L; lia|]. intros i Hi. apply (H (S i)). simpl. lia.
Qed.
Lemma blanked_unique (keep : nat -> Prop) s a b : (forall i, keep i \/ ~ keep i) -> blanked keep s a -> blanked keep s b -> a = b.
Proof.
  intros D [La Ha] [Lb Hb]. apply nth_error_eq; [congruence|]. intros i Hi. rewrite La in Hi.
  destruct (Ha i Hi) as [A1 A2], (Hb i Hi) as [B1 B2]. unfold char_at in *.
  destruct (D i) as [K|K]; [rewrite (A1 K), (B1 K)|rewrite (A2 K), (B2 K)]; reflexivity.
Qed.
Lemma blanked_ext (k k' : nat -> Prop) s a : (forall i, k i <-> k' i) -> blanked k s a -> blanked k' s a.
Proof. intros E [L H]. split; auto. intros i Hi. destruct (H i Hi) as [A B]. rewrite <- E. auto. Qed.

Section Det.
  Context (x : Ext) (lang_of : str -> option lang) (compile : str -> outcome Regex) (o1 o2 o3 : HashOrder)
    (m : DetModel) (res : Resources) (dp : DetParser).
  Hypothesis New : det_new x lang_of compile o1 o2 o3 m res = Ok dp.

  Lemma det_fields : lang_of (dm_language m) = Some (dp_lang dp) /\ dp_groups dp = dm_groups m /\
    dp_slots dp = dm_slots m /\ dp_res dp = res /\
    (exists regexes, compile_regexes compile (dm_patterns m) = Ok regexes /\ dp_regexes dp = reorder o1 regexes) /\
    dp_scopes dp = reorder o3 (map (fun im => (fst im, det_scope x (snd im))) (dm_slots m)).
  Proof.
    assert (N := New). unfold det_new in N. bind_inv N. bind_inv N. inv N. simpl.
    destruct (lang_of (dm_language m)); inv E. split; auto. split; auto. split; auto. split; auto. split; [|reflexivity]. eauto.
  Qed.

  Section Text.
    Context (input text intent : str) (mapping : option (list (range * range))).
    Definition back_of (r : range) : range := match mapping with Some mp => restore_range mp r | None => r end.

    Lemma slot_of_group_cases g :
      (exists s, slot_of_group dp input text intent mapping g = Ok s /\ group_slot m input text intent back_of (fst g) (snd g) s /\
         forall s', group_slot m input text intent back_of (fst g) (snd g) s' -> s' = s) \/
      (slot_of_group dp input text intent mapping g = Panic /\ forall slot entity, ~ group_declared m intent (fst g) slot entity).
    Proof.
      destruct det_fields as (_ & Gr & Sl & _). destruct g as [n r]. unfold slot_of_group, sindex. cbn [fst snd]. rewrite Gr, Sl.
      assert (U : forall slot entity, group_declared m intent n slot entity ->
        exists decls, sget (before_underscore n) (dm_groups m) = Some slot /\
          sget intent (dm_slots m) = Some decls /\ sget slot decls = Some entity).
      { intros slot entity (b & decls & B & R). apply base_name_eq in B. subst b. eauto. }
      destruct (sget (before_underscore n) (dm_groups m)) as [slot|] eqn:E1; cbn [bind].
      2: { right. split; auto. intros s' e' D. destruct (U _ _ D) as (d & A & _). discriminate. }
      destruct (sget intent (dm_slots m)) as [decls|] eqn:E2; cbn [bind].
      2: { right. split; auto. intros s' e' D. destruct (U _ _ D) as (d & _ & A & _). discriminate. }
      destruct (sget slot decls) as [entity|] eqn:E3; cbn [bind].
      2: { right. split; auto. intros s' e' D. destruct (U _ _ D) as (d & A & A' & A''). congruence. }
      left. eexists. split; [reflexivity|]. split.
      - split; [|split; reflexivity]. exists (before_underscore n), decls. cbn [is_slot_name is_entity].
        split; [apply base_name_before|auto].
      - intros s' (D & R & V). destruct (U _ _ D) as (d & A & A' & A''). destruct s' as [v' r' e' n']. cbn [is_slot_name is_entity is_range is_value] in *.
        inv A. inv A'. rewrite E3 in A''. inv A''. subst. reflexivity.
    Qed.

    Lemma groups_cases gs :
      (exists all, mapM (slot_of_group dp input text intent mapping) gs = Ok all /\
         Forall2 (fun g s => group_slot m input text intent back_of (fst g) (snd g) s) gs all /\
         (forall all', Forall2 (fun g s => group_slot m input text intent back_of (fst g) (snd g) s) gs all' -> all' = all) /\
         (forall n rg, In (n, rg) gs -> exists slot entity, group_declared m intent n slot entity)) \/
      (mapM (slot_of_group dp input text intent mapping) gs = Panic /\
         (exists n rg, In (n, rg) gs /\ forall slot entity, ~ group_declared m intent n slot entity) /\
         (forall all, ~ Forall2 (fun g s => group_slot m input text intent back_of (fst g) (snd g) s) gs all)).
    Proof.
      induction gs as [|[n rg] gs IH]; cbn [mapM].
      - left. exists []. split; auto. split; [constructor|]. split; [intros a' H; inversion H; auto|contradiction].
      - destruct (slot_of_group_cases (n, rg)) as [(s & E & G & U)|(E & N)]; rewrite E; cbn [bind]; cbn [fst snd] in *.
        + destruct IH as [(all & Ea & F & Ua & D)|(Ea & (n' & rg' & I & N) & NF)]; rewrite Ea; cbn [bind].
          * left. exists (s :: all). split; auto. split; [constructor; auto|]. split.
            -- intros all' F'. inversion F' as [|? s' ? k' Gs Fk]; subst. f_equal; auto.
            -- intros n0 r0 [Q|I]; [inv Q|eauto]. destruct G as [Gd _]. eauto.
          * right. split; auto. split; [exists n', rg'; split; [right|]; auto|]. intros all F. inversion F as [|? ? ? k Gs Fk]; subst. exact (NF k Fk).
        + right. split; auto. split; [exists n, rg; split; [left|]; auto|]. intros all F. inversion F as [|? ? ? k Gs Fk]; subst.
          destruct Gs as [Gd _]. exact (N _ _ Gd).
    Qed.

    Lemma named_eq caps : named_groups caps = named_captures caps.
    Proof.
      unfold named_groups, named_captures. destruct caps as [|c caps]; [reflexivity|]. cbn [skipn tl].
      induction caps as [|[[n|] [r|]] l IH]; simpl; auto. rewrite IH. reflexivity.
    Qed.

    Lemma matching_eq r v : get_matching_result x dp input text r intent mapping = found intent v <->
      pattern_result x (dp_lang dp) m input text intent back_of r v.
    Proof.
      unfold get_matching_result, pattern_result. destruct (r text) as [caps|].
      2: { split; [|intros ->; reflexivity]. intros H. symmetry. apply (found_inj intent). exact H. }
      rewrite named_eq. destruct (groups_cases (named_captures caps)) as [(all & -> & F & U & D)|(-> & N & NF)]; cbn [bind].
      - split.
        + intros H. right. exists all. split; auto. symmetry. apply (found_inj intent). exact H.
        + intros [(-> & n & rg & I & N)|(all' & F' & ->)].
          * destruct (D n rg I) as (s & e & G). destruct (N s e G).
          * rewrite (U all' F'). reflexivity.
      - split.
        + intros H. left. split; auto. destruct v as [[|]| |]; inversion H. reflexivity.
        + intros [(-> & _)|(all' & F' & _)]; [reflexivity|destruct (NF all' F')].
    Qed.
    Lemma matching_total r : exists v, get_matching_result x dp input text r intent mapping = found intent v.
    Proof.
      unfold get_matching_result. destruct (r text) as [caps|]; [|exists (Ok None); reflexivity].
      rewrite named_eq. destruct (groups_cases (named_captures caps)) as [(all & -> & _)|(-> & _)].
      - exists (Ok (Some (deduplicate_overlapping_slots x (dp_lang dp) all))). reflexivity.
      - exists Panic. reflexivity.
    Qed.
    Lemma result_none r v : pattern_result x (dp_lang dp) m input text intent back_of r v -> v = Ok None <-> r text = None.
    Proof.
      unfold pattern_result. destruct (r text); [|tauto]. intros [(-> & _)|(a & _ & ->)]; split; discriminate.
    Qed.
  End Text.

  Lemma first_match_eq input plain replaced intent mapping regexes v :
    first_match x dp input plain replaced intent mapping regexes = found intent v <->
    tried x (dp_lang dp) m input plain replaced intent (restore_range mapping) regexes v.
  Proof.
    revert v. induction regexes as [|r rest IH]; intros v; cbn [first_match].
    - split; [|intros H; inversion H; reflexivity]. intros H. change (Ok None) with (found intent (Ok None)) in H.
      apply found_inj in H. subst v. constructor.
    - destruct (matching_total input plain intent None r) as (v1 & E1). rewrite E1.
      assert (R1 : pattern_result x (dp_lang dp) m input plain intent (fun r => r) r v1) by (apply (matching_eq input plain intent None); exact E1).
      assert (N1 := result_none input plain intent None r v1 R1).
      assert (P1 : forall v', pattern_result x (dp_lang dp) m input plain intent (fun r => r) r v' -> v' = v1).
      { intros v' P. apply (matching_eq input plain intent None) in P. apply (found_inj intent). congruence. }
      destruct (r plain) as [caps|] eqn:Rp.
      + assert (NV : v1 <> Ok None) by (intros Q; apply N1 in Q; discriminate).
        assert (Q : (let* m1 := found intent v1 in match m1 with Some r0 => Ok (Some r0) | None =>
             let* m' := get_matching_result x dp input replaced r intent (Some mapping) in
             match m' with Some r0 => Ok (Some r0) | None => first_match x dp input plain replaced intent mapping rest end end)
            = found intent v1).
        { destruct v1 as [[s|]|e|]; cbn; auto. contradiction. }
        rewrite Q. split.
        * intros H. apply found_inj in H. subst v1. apply tried_plain; auto.
        * intros H. inversion H; subst; try congruence. rewrite (P1 v); auto.
      + assert (v1 = Ok None) by (apply N1; reflexivity). subst v1. cbn [found bind option_map].
        destruct (matching_total input replaced intent (Some mapping) r) as (v2 & E2). rewrite E2.
        assert (R2 : pattern_result x (dp_lang dp) m input replaced intent (restore_range mapping) r v2)
          by (apply (matching_eq input replaced intent (Some mapping)); exact E2).
        assert (N2 := result_none input replaced intent (Some mapping) r v2 R2).
        assert (P2 : forall v', pattern_result x (dp_lang dp) m input replaced intent (restore_range mapping) r v' -> v' = v2).
        { intros v' P. apply (matching_eq input replaced intent (Some mapping)) in P. apply (found_inj intent). congruence. }
        destruct (r replaced) as [caps|] eqn:Rr.
        * assert (NV : v2 <> Ok None) by (intros Q; apply N2 in Q; discriminate).
          assert (Q : (let* m' := found intent v2 in
             match m' with Some r0 => Ok (Some r0) | None => first_match x dp input plain replaced intent mapping rest end)
            = found intent v2).
          { destruct v2 as [[s|]|e|]; cbn; auto. contradiction. }
          rewrite Q. split.
          -- intros H. apply found_inj in H. subst v2. apply tried_replaced; auto.
          -- intros H. inversion H as [|r0 k0 v0 PR NE|r0 k0 v0 N0 PR NE|r0 k0 v0 N0 N0' T]; subst; [| |congruence].
             ++ apply P1 in PR. congruence.
             ++ apply P2 in PR. congruence.
        * assert (v2 = Ok None) by (apply N2; reflexivity). subst v2. cbn [found bind option_map]. rewrite IH. split.
          -- intros H. apply tried_next; auto.
          -- intros H. inversion H as [|r0 k0 v0 PR NE|r0 k0 v0 N0 PR NE|r0 k0 v0 N0 N0' T]; subst; auto.
             ++ apply P1 in PR. congruence.
             ++ apply P2 in PR. congruence.
  Qed.
  Lemma first_match_total input plain replaced intent mapping regexes : exists v,
    first_match x dp input plain replaced intent mapping regexes = found intent v.
  Proof.
    induction regexes as [|r rest IH]; cbn [first_match]; [exists (Ok None); reflexivity|].
    destruct (matching_total input plain intent None r) as ([[s|]|e|] & ->); cbn [found bind option_map].
    - exists (Ok (Some s)). reflexivity.
    - destruct (matching_total input replaced intent (Some mapping) r) as ([[s|]|e|] & ->); cbn [found bind option_map].
      + exists (Ok (Some s)). reflexivity.
      + exact IH.
      + exists (Err e). reflexivity.
      + exists Panic. reflexivity.
    - exists (Err e). reflexivity.
    - exists Panic. reflexivity.
  Qed.

  Section Model.
    Hypothesis Once : det_keys_once m.
    Hypothesis Tok : tokenizer_ok x.

    Lemma det_ignored intent w : In w (stop_words_of (dp_stop dp) (dp_specific_stop dp) intent) <->
      ignored (dm_ignore_stop_words m) res (dm_stop_whitelist m) intent w.
    Proof.
      destruct Once as (_ & _ & O). rewrite (stop_words_spec _ _ _ _ _ _ _ _ _ intent w O New). unfold ignored.
      split; intros (A & B & C); split; auto; split; auto.
      - intros ws H1 H2. apply C. eauto.
      - intros (ws & H1 & H2). exact (C ws H1 H2).
    Qed.

    Lemma cleaned_eq intent s s' :
      cleaned x (dp_lang dp) (ignored (dm_ignore_stop_words m) res (dm_stop_whitelist m) intent) s s' <->
      det_preprocess x dp s intent = Ok s'.
    Proof.
      destruct (det_preprocess_blanked x dp s intent (Tok _ _)) as (s0 & E & B).
      assert (Q : forall i, in_meaningful_token x (dp_lang dp) (stop_words_of (dp_stop dp) (dp_specific_stop dp) intent) s i <->
        exists t, In t (x_tokenize x (dp_lang dp) s) /\ in_range i (tk_char_range t) /\
          ~ ignored (dm_ignore_stop_words m) res (dm_stop_whitelist m) intent (x_normalize x (tk_value t))).
      { intros i. unfold in_meaningful_token. split; intros (t & A1 & A2 & A3); exists t; split; auto; split; auto.
        - rewrite <- det_ignored. exact A3.
        - rewrite det_ignored. exact A3. }
      apply (blanked_ext _ _ _ _ Q) in B. split.
      - intros C. rewrite E. f_equal. eapply blanked_unique; [|exact B|exact C].
        intros i. rewrite <- Q. unfold in_meaningful_token. clear B Q C E.
        induction (x_tokenize x (dp_lang dp) s) as [|t ts IH]; [right; intros (t & [] & _)|].
        destruct IH as [(t' & A1 & A2)|IH]; [left; exists t'; split; [right|]; auto|].
        assert (R : in_range i (tk_char_range t) \/ ~ in_range i (tk_char_range t)) by (unfold in_range; lia).
        destruct R as [R|R].
        + destruct (in_dec str_eq_dec (x_normalize x (tk_value t)) (stop_words_of (dp_stop dp) (dp_specific_stop dp) intent)) as [I|I].
          * right. intros (t' & [->|A1] & A2 & A3); [contradiction|]. apply IH. eauto.
          * left. exists t. split; [left; auto|auto].
        + right. intros (t' & [->|A1] & A2 & A3); [contradiction|]. apply IH. eauto.
      - intros H. assert (s' = s0) by congruence. subst s'. exact B.
    Qed.

    Lemma regexes_eq intent regexes : sget intent (dp_regexes dp) = Some regexes <->
      exists patterns, In (intent, patterns) (dm_patterns m) /\ Forall2 (fun p r => compile p = Ok r) patterns regexes.
    Proof.
      destruct det_fields as (_ & _ & _ & _ & (rx & Ec & ->) & _). destruct Once as (O & _ & _).
      unfold compile_regexes in Ec. apply mapM_ok_Forall2 in Ec.
      assert (K : hkeys rx = map fst (dm_patterns m)).
      { clear - Ec. induction Ec as [|[i ps] [j rs] l k H F IH]; auto. bind_inv H. inv H. cbn [hkeys map fst] in *. f_equal. exact IH. }
      assert (ND : NoDup (hkeys rx)) by (rewrite K; exact O).
      assert (G : sget intent (reorder o1 rx) = sget intent rx).
      { symmetry. apply (hget_perm _ str_eqb_spec); auto. apply reorder_perm. }
      rewrite G. split.
      - intros H. apply sget_In in H. destruct (Forall2_In_r _ _ _ _ Ec H) as ([i ps] & Hi & E). bind_inv E. inv E.
        exists ps. split; auto. cbn [snd] in *. apply mapM_ok_Forall2. auto.
      - intros (ps & Hi & F). destruct (Forall2_In_l _ _ _ _ Ec Hi) as ([j rs] & Hj & E). bind_inv E. inv E. cbn [fst snd] in *.
        apply mapM_ok_Forall2 in E0. assert (rs = regexes).
        { clear - E0 F. revert regexes F. induction E0; intros regexes F; inversion F; subst; auto. f_equal; [congruence|auto]. }
        subst rs. apply sget_NoDup; auto.
    Qed.

    Lemma regexes_known intent : In intent (map fst (dm_patterns m)) <-> exists regexes, sget intent (dp_regexes dp) = Some regexes.
    Proof.
      split.
      - intros H. destruct det_fields as (_ & _ & _ & _ & (rx & Ec & Er) & _).
        unfold compile_regexes in Ec. apply mapM_ok_Forall2 in Ec.
        apply in_map_iff in H as ([i ps] & <- & Hi). destruct (Forall2_In_l _ _ _ _ Ec Hi) as ([j rs] & Hj & E). bind_inv E. inv E.
        exists rs. apply regexes_eq. exists ps. cbn [fst snd] in *. split; auto. apply mapM_ok_Forall2. auto.
      - intros (rs & H). apply regexes_eq in H as (ps & Hi & _). apply (in_map fst) in Hi. exact Hi.
    Qed.

    Lemma edits_eq kept : edits_of (get_entity_placeholder x) kept = map (fun e => (me_range e, placeholder x (me_name e))) kept.
    Proof. unfold edits_of. apply map_ext. intros e. rewrite placeholder_eq. reflexivity. Qed.

    Section Input.
      Context (ord : HashOrder) (input : str).
      Hypothesis Bok : builtin_parser_ok (rs_builtin res) input.
      Hypothesis Cok : custom_parser_ok (rs_custom res) input.
      Hypothesis Fit : texts_fit x m res input.

      Lemma entities_wf scope es : entities_found res input scope es -> forall e, In e es ->
        wf_range (length input) (me_range e) /\ get_entity_placeholder x (me_name e) <> [].
      Proof.
        intros (bes & ces & B & C & ->) e He. split; [|apply placeholder_nonempty].
        apply in_app_iff in He as [He|He]; apply in_map_iff in He as (b & <- & Hb); [eapply Bok|eapply Cok]; eauto.
      Qed.

      Lemma match_intent_eq intent decls : In (intent, decls) (dm_slots m) ->
        (exists kept, intent_entities x res input decls kept) -> In intent (map fst (dm_patterns m)) ->
        forall v, match_intent x ord dp input intent (det_scope x decls) = found intent v <->
          intent_result x compile (dp_lang dp) m res input intent decls v.
      Proof.
        intros Hd (kept & Ie) Hp v. destruct Ie as (scope & es & Sc & Ef & Ek). apply scope_eq in Sc. subst scope.
        assert (Ef' := Ef). destruct Ef' as (bes & ces & B & C & Ees).
        destruct det_fields as (_ & _ & _ & Rs & _ & _).
        unfold match_intent. rewrite Rs, B. cbn [bind]. rewrite C. cbn [bind].
        change (map matched_of_builtin bes) with (map (fun b => mkME (be_range b) (be_kind b)) bes).
        change (map matched_of_custom ces) with (map (fun c => mkME (ce_range c) (ce_entity c)) ces).
        rewrite <- Ees. destruct (replace_entities input es (get_entity_placeholder x)) as [mapping formatted] eqn:Re.
        destruct Fit as [F1 F2].
        assert (Fm : (Z.of_nat (length formatted) < 32768)%Z).
        { assert (T := replace_entities_text input es (get_entity_placeholder x)). rewrite Re in T. cbn [snd] in T. rewrite T.
          rewrite edits_eq. apply (F2 intent decls (deduplicate_overlapping_entities es)); auto.
          exists (det_scope x decls), es. split; [apply scope_eq; reflexivity|auto]. }
        destruct (replaced input es _ mapping formatted (entities_wf _ _ Ef) F1 Re Fm) as (Em & Et & _).
        rewrite edits_eq in Em, Et. rewrite <- Ek in Em, Et.
        set (edits := map (fun e => (me_range e, placeholder x (me_name e))) kept) in *.
        destruct (det_preprocess_blanked x dp input intent (Tok _ _)) as (plain & Ep & _).
        destruct (det_preprocess_blanked x dp formatted intent (Tok _ _)) as (repl & Er & _).
        rewrite Ep. cbn [bind]. rewrite Er. cbn [bind].
        destruct (proj1 (regexes_known intent) Hp) as (regexes & Ex). rewrite Ex. cbn [ok_or bind].
        rewrite first_match_eq.
        assert (Bk : forall v, tried x (dp_lang dp) m input plain repl intent (restore_range (reorder ord mapping)) regexes v <->
                  tried x (dp_lang dp) m input plain repl intent (restore_range (edit_positions 0 0 edits)) regexes v).
        { assert (Q : forall b b', (forall r, b r = b' r) -> forall rs v, tried x (dp_lang dp) m input plain repl intent b rs v ->
              tried x (dp_lang dp) m input plain repl intent b' rs v).
          { intros b b' Eb rs v' T. induction T; [constructor|apply tried_plain; auto| |apply tried_next; auto].
            apply tried_replaced; auto. unfold pattern_result in *. destruct (r repl) as [caps|]; auto.
            destruct H0 as [H0|(all & F & E)]; auto. right. exists all. split; auto.
            clear - F Eb. induction F as [|g s l k G F IH]; constructor; auto. destruct G as (G1 & G2 & G3). split; auto. split; auto. rewrite <- Eb. exact G2. }
          assert (R : forall r, restore_range (reorder ord mapping) r = restore_range (edit_positions 0 0 edits) r).
          { intros r. rewrite <- Em. apply (restore_order_spec input es _ mapping formatted ord id_order r (entities_wf _ _ Ef) F1 Re Fm). }
          intros v'. split; apply Q; auto. }
        rewrite Bk. apply regexes_eq in Ex as (patterns & Hps & Fp).
        unfold intent_result. split.
        - intros T. exists kept, patterns, regexes, plain, repl. split; [|split; [|split; [|split; [|split]]]]; auto.
          + exists (det_scope x decls), es. split; [apply scope_eq; reflexivity|auto].
          + apply cleaned_eq. exact Ep.
          + fold edits. rewrite <- Et. apply cleaned_eq. exact Er.
        - intros (kept' & patterns' & regexes' & plain' & repl' & (sc' & es' & Sc' & Ef' & Ek') & Hps' & Fp' & C1 & C2 & T).
          apply scope_eq in Sc'. subst sc'. assert (es' = es).
          { destruct Ef' as (bes' & ces' & B' & C' & ->). rewrite Ees. congruence. }
          subst es'. assert (kept' = kept) by congruence. clear Ek'. subst kept'. fold edits in C2, T.
          apply cleaned_eq in C1. rewrite <- Et in C2. apply cleaned_eq in C2.
          assert (plain' = plain) by congruence. assert (repl' = repl) by congruence. subst plain' repl'.
          assert (X1 : sget intent (dp_regexes dp) = Some regexes) by (apply regexes_eq; eauto).
          assert (X2 : sget intent (dp_regexes dp) = Some regexes') by (apply regexes_eq; eauto).
          assert (regexes' = regexes) by congruence. subst regexes'. exact T.
      Qed.

      Lemma match_intent_ready intent decls o : In (intent, decls) (dm_slots m) ->
        match_intent x ord dp input intent (det_scope x decls) = Ok o ->
        (exists kept, intent_entities x res input decls kept) /\ In intent (map fst (dm_patterns m)).
      Proof.
        intros Hd H. destruct det_fields as (_ & _ & _ & Rs & _ & _). unfold match_intent in H. rewrite Rs in H.
        bind_inv H. rename a into bes. bind_inv H. rename a into ces.
        destruct (replace_entities input _ _) as [mapping formatted]. bind_inv H. bind_inv H. bind_inv H. split.
        - eexists. exists (det_scope x decls). eexists. split; [apply scope_eq; reflexivity|]. split; [|reflexivity]. exists bes, ces. auto.
        - apply regexes_known. destruct (sget intent (dp_regexes dp)) as [rs|]; [eauto|discriminate].
      Qed.

      Lemma considered_eq f i sc : In (i, sc) (considered dp f) <->
        exists decls, In (i, decls) (dm_slots m) /\ sc = det_scope x decls /\ allowed f i.
      Proof.
        destruct det_fields as (_ & _ & Sl & _ & _ & Ss). unfold considered. rewrite filter_In, smem_spec, Ss, Sl. rewrite reorder_In, in_map_iff.
        split.
        - intros ((d & E & Hd) & A). destruct d as [j decls]. inv E. exists decls. split; auto. split; auto. destruct f; cbn in *; auto.
        - intros (decls & Hd & -> & A). split; [exists (i, decls); auto|]. destruct f; cbn in *; auto.
          apply (in_map fst) in Hd. exact Hd.
      Qed.

      Lemma considered_names f : NoDup (map fst (considered dp f)).
      Proof.
        destruct det_fields as (_ & _ & _ & _ & _ & Ss). destruct Once as (_ & O & _). unfold considered. rewrite Ss.
        eapply subseq_NoDup; [apply subseq_map; apply subseq_filter|].
        eapply Permutation_NoDup; [apply Permutation_map; apply reorder_perm|]. rewrite map_map. exact O.
      Qed.

      Lemma det_matches_exact f ms : det_matches x ord dp input f = Ok ms ->
        pattern_matches x compile (dp_lang dp) m res input f ms.
      Proof.
        intros H. assert (Hn := det_matches_names _ _ _ _ _ _ H). split.
        { eapply subseq_NoDup; [exact Hn|]. apply NoDup_map_Some. apply considered_names. }
        apply det_matches_ok in H as (opts & F & ->). intros r. unfold pattern_recognised. split.
        - intros Hr. apply In_present_inv in Hr. destruct (Forall2_In_r _ _ _ _ F Hr) as ([i sc] & Hi & E). cbn [fst snd] in E.
          apply considered_eq in Hi as (decls & Hd & -> & A). destruct (match_intent_ready _ _ _ Hd E) as [Ie Hp].
          assert (Ni := match_intent_name _ _ _ _ _ _ _ E).
          unfold match_intent in E.
          assert (Fr : exists slots, r = mkIPR (mkIR (Some i) f1) slots).
          { repeat (bind_inv E). destruct (replace_entities input _ _) as [mp fm]. repeat (bind_inv E).
            destruct (first_match_total input a1 a2 i (reorder ord mp) a3) as (v & Ev). rewrite Ev in E.
            destruct v as [[s|]| |]; inversion E. eauto. }
          destruct Fr as (slots & ->). exists i, slots. split; auto. split; auto. exists decls. split; auto.
          apply match_intent_eq; auto.
        - intros (i & slots & -> & A & decls & Hd & R).
          assert (Hc : In (i, det_scope x decls) (considered dp f)) by (apply considered_eq; eauto).
          destruct (Forall2_In_l _ _ _ _ F Hc) as (o & Ho & E). cbn [fst snd] in E.
          destruct (match_intent_ready _ _ _ Hd E) as [Ie Hp].
          apply (match_intent_eq _ _ Hd Ie Hp) in R. rewrite R in E. inversion E; subst o.
          clear - Ho. induction opts as [|[p|] opts IH]; simpl in *; [contradiction| |].
          + destruct Ho as [H|H]; [left; congruence|right; auto].
          + destruct Ho as [H|H]; [discriminate|auto].
      Qed.

      Lemma match_intent_total i decls : In (i, decls) (dm_slots m) ->
        (exists kept, intent_entities x res input decls kept) -> In i (map fst (dm_patterns m)) ->
        exists v, match_intent x ord dp input i (det_scope x decls) = found i v /\ forall e, v <> Err e.
      Proof.
        intros Hd (kept & scope & es & Sc & (bes & ces & B & C & _) & _) Hp. apply scope_eq in Sc. subst scope.
        destruct det_fields as (_ & _ & _ & Rs & _ & _). unfold match_intent. rewrite Rs, B. cbn [bind]. rewrite C. cbn [bind].
        destruct (replace_entities input _ _) as [mp fm].
        destruct (det_preprocess_blanked x dp input i (Tok _ _)) as (plain & Ep & _).
        destruct (det_preprocess_blanked x dp fm i (Tok _ _)) as (repl & Er & _).
        rewrite Ep. cbn [bind]. rewrite Er. cbn [bind].
        destruct (proj1 (regexes_known i) Hp) as (regexes & Ex). rewrite Ex. cbn [ok_or bind].
        destruct (first_match_total input plain repl i (reorder ord mp) regexes) as (v & Ev). exists v. split; auto.
        apply first_match_eq in Ev. intros e ->. clear - Ev. remember (Err e) as v eqn:Qv. induction Ev; subst; try discriminate; auto.
        - unfold pattern_result in H. destruct (r plain); [|discriminate]. destruct H as [(Q & _)|(a & _ & Q)]; discriminate.
        - unfold pattern_result in H0. destruct (r repl); [|discriminate]. destruct H0 as [(Q & _)|(a & _ & Q)]; discriminate.
      Qed.

      Lemma det_matches_crash f : intents_ready x m res input f ->
        (forall e, det_matches x ord dp input f <> Err e) /\
        (det_matches x ord dp input f = Panic <-> exists i decls, In (i, decls) (dm_slots m) /\ allowed f i /\
           intent_result x compile (dp_lang dp) m res input i decls Panic).
      Proof.
        intros Rd. unfold det_matches.
        assert (NE : forall a, In a (considered dp f) -> forall e, match_intent x ord dp input (fst a) (snd a) <> Err e).
        { intros [i sc] Hi e. apply considered_eq in Hi as (decls & Hd & -> & A). cbn [fst snd]. destruct (Rd i decls Hd A) as [Hp Ie].
          destruct (match_intent_total _ _ Hd Ie Hp) as (v & -> & N). destruct v as [[|]|e'|]; try discriminate.
          exfalso. apply (N e'). reflexivity. }
        assert (Pn := mapM_panic (fun e => match_intent x ord dp input (fst e) (snd e)) (considered dp f) NE).
        assert (Nn := mapM_no_err (fun e => match_intent x ord dp input (fst e) (snd e)) (considered dp f) NE).
        split.
        - intros e H. destruct (mapM _ (considered dp f)) as [o|e'|] eqn:E; try discriminate. apply (Nn e'). reflexivity.
        - assert (Q : (let* opts := mapM (fun e => match_intent x ord dp input (fst e) (snd e)) (considered dp f) in
                       Ok (filter_map (fun o => o) opts)) = Panic <->
                     mapM (fun e => match_intent x ord dp input (fst e) (snd e)) (considered dp f) = Panic).
          { destruct (mapM _ (considered dp f)); cbn [bind]; split; congruence. }
          rewrite Q, Pn. split.
          + intros ([i sc] & Hi & E). apply considered_eq in Hi as (decls & Hd & -> & A). cbn [fst snd] in E.
            destruct (Rd i decls Hd A) as [Hp Ie]. exists i, decls. split; auto. split; auto. apply match_intent_eq; auto.
          + intros (i & decls & Hd & A & R). destruct (Rd i decls Hd A) as [Hp Ie]. exists (i, det_scope x decls).
            split; [apply considered_eq; eauto|]. cbn [fst snd]. apply (match_intent_eq _ _ Hd Ie Hp) in R. exact R.
      Qed.

      Lemma det_missing f i decls : In (i, decls) (dm_slots m) -> allowed f i -> ~ In i (map fst (dm_patterns m)) ->
        forall r, det_parse x ord dp input f <> Ok r.
      Proof.
        intros Hd A Np r H. unfold det_parse, det_parse_top in H. bind_inv H. bind_inv E. rename a0 into ms.
        apply det_matches_ok in E0 as (opts & F & _).
        assert (Hc : In (i, det_scope x decls) (considered dp f)) by (apply considered_eq; eauto).
        destruct (Forall2_In_l _ _ _ _ F Hc) as (o & _ & Eo). apply Np. eapply match_intent_ready; eauto.
      Qed.

      Lemma tried_count plain repl i back rs v : tried x (dp_lang dp) m input plain repl i back rs v -> groups_fit compile ->
        forall ps, Forall2 (fun p r => compile p = Ok r) ps rs -> forall slots, v = Ok (Some slots) -> (Z.of_nat (length slots) < 2 ^ 64)%Z.
      Proof.
        intros T G.
        assert (K : forall text b p r slots, compile p = Ok r -> pattern_result x (dp_lang dp) m input text i b r (Ok (Some slots)) ->
                  (Z.of_nat (length slots) < 2 ^ 64)%Z).
        { intros text b p r slots Ec P. unfold pattern_result in P. destruct (r text) as [caps|] eqn:E; [|discriminate].
          destruct P as [(Q & _)|(all & F & Q)]; [discriminate|]. inversion Q; subst. assert (B := G _ _ _ _ Ec E).
          assert (L1 : length (deduplicate_overlapping_slots x (dp_lang dp) all) <= length all).
          { change (deduplicate_overlapping_slots x (dp_lang dp) all) with (resolve is_range (slot_sort_key x (dp_lang dp)) all).
            destruct (resolve_free is_range (slot_sort_key x (dp_lang dp)) all) as (_ & d & Pm & _).
            rewrite (Permutation_length Pm), app_length. lia. }
          apply Forall2_length' in F.
          assert (L2 : length (named_captures caps) <= length caps).
          { unfold named_captures. destruct caps as [|c caps]; [simpl; lia|]. cbn [tl length]. clear.
            induction caps as [|[[n|] [r|]] l IH]; cbn [flat_map app length] in *; lia. }
          lia. }
        induction T; intros ps F slots Ev; inversion F; subst; try discriminate; eauto.
      Qed.

      Lemma recognised_countable f i slots : groups_fit compile -> pattern_recognised x compile (dp_lang dp) m res input f i slots ->
        (Z.of_nat (length slots) < 2 ^ 64)%Z.
      Proof.
        intros G (_ & decls & _ & kept & ps & rs & plain & repl & _ & _ & F & _ & _ & T).
        exact (tried_count _ _ _ _ _ _ T G ps F slots eq_refl).
      Qed.

      Lemma det_countable f ms : groups_fit compile -> pattern_matches x compile (dp_lang dp) m res input f ms -> countable ms.
      Proof.
        intros G [_ P] r Hr. apply P in Hr as (i & slots & -> & R). exact (recognised_countable _ _ _ G R).
      Qed.

      Lemma det_parse_exact f r : groups_fit compile -> det_parse x ord dp input f = Ok r ->
        exists ms, pattern_matches x compile (dp_lang dp) m res input f ms /\ rule_answer ms r.
      Proof.
        intros G H. destruct (det_matches x ord dp input f) as [ms|e|] eqn:E.
        - assert (P := det_matches_exact _ _ E). exists ms. split; auto.
          destruct (det_parse_rule _ _ _ _ _ _ E (det_countable _ _ G P)) as (r' & Er & R). congruence.
        - unfold det_parse, det_parse_top in H. rewrite E in H. discriminate.
        - unfold det_parse, det_parse_top in H. rewrite E in H. discriminate.
      Qed.

      Lemma det_parse_recognised f r i : groups_fit compile -> det_parse x ord dp input f = Ok r ->
        ir_name (pr_intent r) = Some i -> pattern_recognised x compile (dp_lang dp) m res input f i (pr_slots r).
      Proof.
        intros G H N. destruct (det_parse_exact _ _ G H) as (ms & (_ & P) & [[-> _]|(k & m0 & Hk & -> & _)]); [discriminate|].
        apply nth_error_In in Hk. apply P in Hk as (j & slots & -> & R). cbn in N. inversion N; subst. exact R.
      Qed.

      Lemma det_parse_nothing f r : groups_fit compile -> det_parse x ord dp input f = Ok r ->
        (forall i slots, ~ pattern_recognised x compile (dp_lang dp) m res input f i slots) -> r = no_intent.
      Proof.
        intros G H No. destruct (det_parse_exact _ _ G H) as (ms & (_ & P) & R).
        destruct ms as [|m0 ms]; [apply rule_answer_nil; exact R|]. exfalso.
        destruct (proj1 (P m0) (or_introl eq_refl)) as (i & slots & _ & R0). exact (No _ _ R0).
      Qed.

      Lemma det_parse_certain f r i slots : groups_fit compile -> det_parse x ord dp input f = Ok r ->
        pattern_recognised x compile (dp_lang dp) m res input f i slots ->
        (forall j s, pattern_recognised x compile (dp_lang dp) m res input f j s -> j = i) ->
        r = mkIPR (mkIR (Some i) f1) slots.
      Proof.
        intros G H R One. destruct (det_parse_exact _ _ G H) as (ms & Pm & Ra).
        assert (C := det_countable _ _ G Pm). destruct Pm as (N & P).
        assert (Ni : forall m0, In m0 ms -> ir_name (pr_intent m0) = Some i).
        { intros m0 Hm. apply P in Hm as (j & s & -> & Rj). rewrite (One _ _ Rj). reflexivity. }
        assert (Hm : In (mkIPR (mkIR (Some i) f1) slots) ms) by (apply P; eauto).
        destruct ms as [|a [|b ms]]; [contradiction| |].
        - destruct Hm as [->|[]]. apply rule_answer_single in Ra; auto.
        - exfalso. assert (Ha := Ni a (or_introl eq_refl)). assert (Hb := Ni b (or_intror (or_introl eq_refl))).
          cbn [map] in N. inversion N as [|? ? Nin _]; subst. apply Nin. left. congruence.
      Qed.

      Lemma det_parse_crash f : groups_fit compile -> intents_ready x m res input f ->
        (forall e, det_parse x ord dp input f <> Err e) /\
        (det_parse x ord dp input f = Panic <-> exists i decls, In (i, decls) (dm_slots m) /\ allowed f i /\
           intent_result x compile (dp_lang dp) m res input i decls Panic).
      Proof.
        intros G Rd. destruct (det_matches_crash f Rd) as [NE Pn]. rewrite <- Pn.
        destruct (det_matches x ord dp input f) as [ms|e|] eqn:E.
        - assert (P := det_matches_exact _ _ E). destruct (det_parse_rule _ _ _ _ _ _ E (det_countable _ _ G P)) as (r' & Er & R).
          rewrite Er. split; [discriminate|split; discriminate].
        - exfalso. apply (NE e). reflexivity.
        - unfold det_parse, det_parse_top. rewrite E. cbn [bind]. split; [discriminate|tauto].
      Qed.

      Lemma det_parse_safe f : groups_fit compile -> intents_ready x m res input f -> groups_declared compile m ->
        exists r, det_parse x ord dp input f = Ok r.
      Proof.
        intros G Rd D. destruct (det_parse_crash f G Rd) as [NE Pn].
        destruct (det_parse x ord dp input f) as [r|e|] eqn:E; [eauto|exfalso; apply (NE e); reflexivity|].
        exfalso. destruct (proj1 Pn eq_refl) as (i & decls & _ & _ & kept & ps & rs & plain & repl & _ & Hp & F & _ & _ & T).
        assert (K : forall r, In r rs -> forall text b, ~ pattern_result x (dp_lang dp) m input text i b r Panic).
        { intros r Hr text b P. destruct (Forall2_In_r _ _ _ _ F Hr) as (p & Hpp & Ec). unfold pattern_result in P.
          destruct (r text) as [caps|] eqn:Er; [|discriminate]. destruct P as [(_ & n & rg & I & N)|(a & _ & Q)]; [|discriminate].
          destruct (D i ps p r text caps n rg Hp Hpp Ec Er I) as (s & e & Gd). exact (N s e Gd). }
        clear - T K. remember Panic as v eqn:Qv. induction T; subst; try discriminate.
        - apply (K r (or_introl eq_refl) _ _ H).
        - apply (K r (or_introl eq_refl) _ _ H0).
        - apply IHT; auto. intros r' Hr'. apply K. right. exact Hr'.
      Qed.

      Lemma det_slots_exact i slots : groups_fit compile -> det_get_slots x ord dp input i = Ok slots ->
        (slots = [] /\ forall s, ~ pattern_recognised x compile (dp_lang dp) m res input (Some [i]) i s) \/
        pattern_recognised x compile (dp_lang dp) m res input None i slots.
      Proof.
        intros G H. unfold det_get_slots in H. destruct (smem i _); [|discriminate]. bind_inv H. rename a into r. inv H.
        assert (One : forall j s, pattern_recognised x compile (dp_lang dp) m res input (Some [i]) j s -> j = i).
        { intros j s ([A|[]] & _). auto. }
        destruct (det_parse_exact _ _ G E) as (ms & P & Ra).
        destruct ms as [|m0 ms].
        - apply rule_answer_nil in Ra. subst r. left. split; auto. intros s Rs.
          destruct P as (_ & P). destruct (proj2 (P (mkIPR (mkIR (Some i) f1) s))). eauto.
        - right. destruct (proj1 (proj2 P m0) (or_introl eq_refl)) as (j & s & -> & R).
          assert (j = i) by (eapply One; eauto). subst j.
          rewrite (det_parse_certain _ _ _ _ G E R One). cbn [pr_slots].
          destruct R as (_ & R). split; [exact I|exact R].
      Qed.
    End Input.
  End Model.
End Det.

(** ** Statements *)
Lemma lookup_own_form x lang_of o m res lp ord input g i slots r :
  lookup_setting lang_of o m res lp -> In g (lm_scopes m) -> In i (gs_intents g) ->
  recognised_for x (lp_lang lp) m res input g i i slots ->
  lookup_parse x ord lp input (Some [i]) = Ok r -> pr_intent r = mkIR (Some i) f1.
Proof.
  intros (N & W & S) Hg Hi R H. eapply parse_certain; eauto.
  - split; [left; reflexivity|]. exists g, i. split; auto. split; auto. split; [left; reflexivity|exact R].
  - intros j s ([A|[]] & _). auto.
Qed.
Lemma lookup_exact x lang_of o m res lp ord input f r : lookup_setting lang_of o m res lp ->
  lookup_parse x ord lp input f = Ok r ->
  exists ms, recognised_matches x (lp_lang lp) m res input f ms /\ rule_answer ms r.
Proof. intros (N & W & S). apply (parse_exact x lang_of o m res lp N W ord input f r S). Qed.
Lemma lookup_recognised x lang_of o m res lp ord input f r i : lookup_setting lang_of o m res lp ->
  lookup_parse x ord lp input f = Ok r -> ir_name (pr_intent r) = Some i ->
  recognised x (lp_lang lp) m res input f i (pr_slots r) /\
  forall slots, recognised x (lp_lang lp) m res input f i slots -> length (pr_slots r) <= length slots.
Proof. intros (N & W & S). apply (parse_recognised x lang_of o m res lp N W ord input f r i S). Qed.
Lemma lookup_certain x lang_of o m res lp ord input f r i slots : lookup_setting lang_of o m res lp ->
  lookup_parse x ord lp input f = Ok r -> recognised x (lp_lang lp) m res input f i slots ->
  (forall j slots', recognised x (lp_lang lp) m res input f j slots' -> j = i) -> pr_intent r = mkIR (Some i) f1.
Proof. intros (N & W & S). apply (parse_certain x lang_of o m res lp N W ord input f r i slots S). Qed.
Lemma lookup_nothing x lang_of o m res lp ord input f r : lookup_setting lang_of o m res lp ->
  lookup_parse x ord lp input f = Ok r -> (forall i slots, ~ recognised x (lp_lang lp) m res input f i slots) -> r = no_intent.
Proof. intros (N & W & S). apply (parse_nothing x lang_of o m res lp N W ord input f r S). Qed.
Lemma lookup_slots_exact x lang_of o m res lp ord input i slots : lookup_setting lang_of o m res lp ->
  lookup_get_slots x ord lp input i = Ok slots ->
  (slots = [] /\ forall s, ~ recognised x (lp_lang lp) m res input (Some [i]) i s) \/
  (recognised x (lp_lang lp) m res input (Some [i]) i slots /\
   forall s, recognised x (lp_lang lp) m res input (Some [i]) i s -> length slots <= length s).
Proof. intros (N & W & S). apply (get_slots_exact x lang_of o m res lp N W ord input i slots S). Qed.
Lemma lookup_answers x lang_of o m res lp ord input f : lookup_setting lang_of o m res lp ->
  entities_answered x m res input f -> table_ok lp -> exists r, lookup_parse x ord lp input f = Ok r.
Proof. intros (N & _ & _). apply (parse_answers x lang_of o m res lp N). Qed.

Lemma patterns_exact x lang_of compile o1 o2 o3 m res dp ord input f r :
  det_setting x lang_of compile o1 o2 o3 m res dp input -> det_parse x ord dp input f = Ok r ->
  exists ms, pattern_matches x compile (dp_lang dp) m res input f ms /\ rule_answer ms r.
Proof. intros (N & K & T & B & C & F & G). exact (det_parse_exact x lang_of compile o1 o2 o3 m res dp N K T ord input B C F f r G). Qed.
Lemma patterns_recognised x lang_of compile o1 o2 o3 m res dp ord input f r i :
  det_setting x lang_of compile o1 o2 o3 m res dp input -> det_parse x ord dp input f = Ok r ->
  ir_name (pr_intent r) = Some i -> pattern_recognised x compile (dp_lang dp) m res input f i (pr_slots r).
Proof. intros (N & K & T & B & C & F & G). exact (det_parse_recognised x lang_of compile o1 o2 o3 m res dp N K T ord input B C F f r i G). Qed.
Lemma patterns_certain x lang_of compile o1 o2 o3 m res dp ord input f r i slots :
  det_setting x lang_of compile o1 o2 o3 m res dp input -> det_parse x ord dp input f = Ok r ->
  pattern_recognised x compile (dp_lang dp) m res input f i slots ->
  (forall j s, pattern_recognised x compile (dp_lang dp) m res input f j s -> j = i) ->
  r = mkIPR (mkIR (Some i) f1) slots.
Proof. intros (N & K & T & B & C & F & G). exact (det_parse_certain x lang_of compile o1 o2 o3 m res dp N K T ord input B C F f r i slots G). Qed.
Lemma patterns_nothing x lang_of compile o1 o2 o3 m res dp ord input f r :
  det_setting x lang_of compile o1 o2 o3 m res dp input -> det_parse x ord dp input f = Ok r ->
  (forall i slots, ~ pattern_recognised x compile (dp_lang dp) m res input f i slots) -> r = no_intent.
Proof. intros (N & K & T & B & C & F & G). exact (det_parse_nothing x lang_of compile o1 o2 o3 m res dp N K T ord input B C F f r G). Qed.
Lemma patterns_slots x lang_of compile o1 o2 o3 m res dp ord input i slots :
  det_setting x lang_of compile o1 o2 o3 m res dp input -> det_get_slots x ord dp input i = Ok slots ->
  (slots = [] /\ forall s, ~ pattern_recognised x compile (dp_lang dp) m res input (Some [i]) i s) \/
  pattern_recognised x compile (dp_lang dp) m res input None i slots.
Proof. intros (N & K & T & B & C & F & G). exact (det_slots_exact x lang_of compile o1 o2 o3 m res dp N K T ord input B C F i slots G). Qed.
Lemma patterns_crash x lang_of compile o1 o2 o3 m res dp ord input f :
  det_setting x lang_of compile o1 o2 o3 m res dp input -> intents_ready x m res input f ->
  (forall e, det_parse x ord dp input f <> Err e) /\
  (det_parse x ord dp input f = Panic <-> exists i decls, In (i, decls) (dm_slots m) /\ allowed f i /\
     intent_result x compile (dp_lang dp) m res input i decls Panic).
Proof. intros (N & K & T & B & C & F & G). exact (det_parse_crash x lang_of compile o1 o2 o3 m res dp N K T ord input B C F f G). Qed.
Lemma patterns_safe x lang_of compile o1 o2 o3 m res dp ord input f :
  det_setting x lang_of compile o1 o2 o3 m res dp input -> intents_ready x m res input f -> groups_declared compile m ->
  exists r, det_parse x ord dp input f = Ok r.
Proof. intros (N & K & T & B & C & F & G). exact (det_parse_safe x lang_of compile o1 o2 o3 m res dp N K T ord input B C F f G). Qed.
Lemma patterns_missing x lang_of compile o1 o2 o3 m res dp ord input f i decls :
  det_new x lang_of compile o1 o2 o3 m res = Ok dp -> det_keys_once m ->
  In (i, decls) (dm_slots m) -> allowed f i -> ~ In i (map fst (dm_patterns m)) ->
  forall r, det_parse x ord dp input f <> Ok r.
Proof. intros N K. exact (det_missing x lang_of compile o1 o2 o3 m res dp N K ord input f i decls). Qed.
