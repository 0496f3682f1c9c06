(** Proofs for C90: classifier and slot filler. *)
From Coq Require Import String List NArith ZArith Bool Arith Lia Permutation.
From Verif Require Import Base Sorting F32 M_Types M_Utils M_Engine M_Det M_Feat M_Prob M_Features M_Crf M_Filler M_Fs M_Json M_Load
  S_Base S_Utils S_Det S_Rules S_Load S_Made S_Seeds S_Case S_Pad P_Base P_Utils P_Rules P_Prob P_Case P_Pad P_PadDet.
Import ListNotations.
Local Open Scope list_scope.
Local Open Scope nat_scope.

Section Feat.
  Context (n k : nat) (x : Ext) (shape : str -> str) (ngrams : list str -> nat -> list str).
  Notation pad := (padded n k).
  Hypothesis HT : forall l s, x_tokenize x l (pad s) = map (moved_token n) (x_tokenize x l s).
  Hypothesis HW : forall l s, x_tokenize_light x l (pad s) = x_tokenize_light x l s.
  Hypothesis TO : tokenizer_ok x.

  (** ** Classifier *)
  Section Classifier.
    Context (res : Resources) (input : str).
    Hypothesis RB : forall kinds c m, rs_builtin res (pad input) kinds c m = on_ok (map (moved_entity n)) (rs_builtin res input kinds c m).
    Hypothesis RC : forall kinds m, rs_custom res (pad input) kinds m = on_ok (map (moved_custom n)) (rs_custom res input kinds m).
    Hypothesis Bok : builtin_parser_ok (rs_builtin res) input.
    Hypothesis Cok : custom_parser_ok (rs_custom res) input.

    Lemma words_moved tv : tv_res tv = res -> tfidf_words x ngrams tv (pad input) = tfidf_words x ngrams tv input.
    Proof.
      intros R. unfold tfidf_words. rewrite R, HW, RB. destruct (rs_builtin _ _ _ _ _); auto. cbn [on_ok bind]. rewrite map_map. reflexivity.
    Qed.
    Lemma cooc_moved cv : cv_res cv = res -> cooc_tokens x cv (pad input) = cooc_tokens x cv input.
    Proof.
      intros R. unfold cooc_tokens. rewrite R, RB. destruct (rs_builtin res input (Some (cv_scope cv)) true 0) as [bes| |] eqn:Eb; auto. cbn [on_ok bind].
      rewrite RC. destruct (rs_custom res input None 0) as [ces| |] eqn:Ec; auto. cbn [on_ok bind].
      assert (Em : map matched_of_builtin (map (moved_entity n) bes) ++ map matched_of_custom (map (moved_custom n) ces)
                   = map (moved_matched n) (map matched_of_builtin bes ++ map matched_of_custom ces)).
      { rewrite map_app, !map_map. reflexivity. }
      rewrite Em, !replace_entities_text, dedup_moved, edits_moved, apply_moved_0, HW; [reflexivity|].
      apply dedup_edits_ok. intros e He. apply in_app_or in He as [He|He]; apply in_map_iff in He as (b & <- & Hb).
      - exact (Bok _ _ _ _ Eb b Hb).
      - exact (Cok _ _ _ Ec b Hb).
    Qed.
    Lemma featurize_moved o1 o2 fz : tv_res (fz_tfidf fz) = res -> (forall cv, fz_cooc fz = Some cv -> cv_res cv = res) ->
      featurize x ngrams o1 o2 fz (pad input) = featurize x ngrams o1 o2 fz input.
    Proof.
      intros R1 R2. unfold featurize, tfidf_transform. rewrite (words_moved _ R1). destruct (fz_cooc fz) as [cv|]; auto.
      unfold cooc_transform. rewrite (cooc_moved cv (R2 cv eq_refl)). reflexivity.
    Qed.
  End Classifier.
  Lemma classifier_moved mx c input wl : (forall t, cl_featurizer c = Some t -> t (pad input) = t input) -> input <> [] ->
    get_intents_with_whitelist mx c (pad input) wl = get_intents_with_whitelist mx c input wl.
  Proof.
    intros Ht H. unfold get_intents_with_whitelist. destruct (_ <=? 1); auto. destruct input as [|ch s] eqn:Ei; [contradiction|]. rewrite <- Ei in *.
    destruct (pad input) as [|ch' s'] eqn:Ep; [pose proof (pad_length n k input) as L; rewrite Ep, Ei in L; simpl in L; lia|]. rewrite <- Ep in *.
    destruct (cl_featurizer c) as [t|]; auto. destruct (cl_logreg c); auto. rewrite (Ht t eq_refl). reflexivity.
  Qed.

  (** ** Features of the slot filler *)
  Definition unmoved_feature (ft : Feature) : Prop :=
    forall ts i, ft_compute ft (map (moved_token n) ts) i = ft_compute ft ts i.
  Lemma index_map {A B} (g : A -> B) l i : index (map g l) i = on_ok g (index l i).
  Proof. unfold index. revert i. induction l as [|a l IH]; intros [|i]; simpl; auto. Qed.
  Lemma slice_map {A B} (g : A -> B) l a b : slice (map g l) a b = on_ok (map g) (slice l a b).
  Proof. unfold slice. rewrite map_length. destruct (_ && _); auto. cbn [on_ok]. rewrite skipn_map, firstn_map. reflexivity. Qed.

  Ltac at_token := intros ts i; cbn [ft_compute is_digit_feature length_feature prefix_feature suffix_feature word_cluster_feature];
    rewrite index_map; destruct (index ts i); reflexivity.
  Lemma unmoved_digit : unmoved_feature is_digit_feature. Proof. at_token. Qed.
  Lemma unmoved_length : unmoved_feature length_feature. Proof. at_token. Qed.
  Lemma unmoved_last : unmoved_feature is_last_feature.
  Proof. intros ts i. cbn [ft_compute is_last_feature]. rewrite map_length. reflexivity. Qed.
  Lemma unmoved_ngram m g st : unmoved_feature (ngram_feature x m g st).
  Proof.
    intros ts i. cbn [ft_compute ngram_feature]. rewrite map_length. destruct (_ <? _); auto. rewrite slice_map. destruct (slice ts i _); auto.
    cbn [on_ok bind]. rewrite map_map. reflexivity.
  Qed.
  Lemma unmoved_shape m : unmoved_feature (shape_ngram_feature shape m).
  Proof.
    intros ts i. cbn [ft_compute shape_ngram_feature]. rewrite map_length. destruct (_ && _); auto. rewrite slice_map. destruct (slice ts i _); auto.
    cbn [on_ok bind]. rewrite map_map. reflexivity.
  Qed.
  Lemma unmoved_prefix m : unmoved_feature (prefix_feature x m). Proof. at_token. Qed.
  Lemma unmoved_suffix m : unmoved_feature (suffix_feature x m). Proof. at_token. Qed.
  Lemma unmoved_cluster m c : unmoved_feature (word_cluster_feature x m c). Proof. at_token. Qed.
  Lemma transform_moved st ts : transform_tokens x (map (moved_token n) ts) st = transform_tokens x ts st.
  Proof.
    unfold transform_tokens. generalize 0 at 1 3. generalize 0. induction ts as [|t ts IH]; intros b c; auto. cbn [map transform_tokens_from moved_token tk_value].
    rewrite IH. reflexivity.
  Qed.
  Lemma unmoved_entity e sc st parser : unmoved_feature (entity_match_feature x e sc st parser).
  Proof. intros ts i. cbn [ft_compute entity_match_feature]. rewrite transform_moved. reflexivity. Qed.
  Lemma chunks_moved ts : forall c, token_chunks (n + c) (map (moved_token n) ts) = token_chunks c ts.
  Proof.
    induction ts as [|t ts IH]; intros c; auto. cbn [map token_chunks moved_token tk_value tk_char_range].
    change (rend (moved n (tk_char_range t))) with (n + rend (tk_char_range t)). change (rstart (moved n (tk_char_range t))) with (n + rstart (tk_char_range t)).
    rewrite IH. replace (n + c <? n + rstart (tk_char_range t)) with (c <? rstart (tk_char_range t)).
    - replace (n + rstart (tk_char_range t) - (n + c)) with (rstart (tk_char_range t) - c) by lia. reflexivity.
    - destruct (Nat.ltb_spec c (rstart (tk_char_range t))), (Nat.ltb_spec (n + c) (n + rstart (tk_char_range t))); auto; lia.
  Qed.
  Lemma spaces_repeat m : spaces m = repeat 32%N m.
  Proof. induction m as [|m IH]; auto. Qed.
  Lemma string_moved ts : initial_string_from_tokens (map (moved_token n) ts) = on_ok (padded n 0) (initial_string_from_tokens ts).
  Proof.
    unfold initial_string_from_tokens. rewrite map_length. destruct ts as [|t ts]; auto. unfold usub. cbn [length].
    destruct (1 <=? 2 * Datatypes.S (length ts)) eqn:E; auto. cbn [bind on_ok]. f_equal. cbn [map token_chunks moved_token tk_value tk_char_range].
    change (rend (moved n (tk_char_range t))) with (n + rend (tk_char_range t)). change (rstart (moved n (tk_char_range t))) with (n + rstart (tk_char_range t)).
    rewrite chunks_moved. unfold padded. cbn [repeat]. rewrite app_nil_r, !concat_app, (app_assoc (repeat 32%N n)). f_equal.
    destruct (Nat.ltb_spec 0 (n + rstart (tk_char_range t))); destruct (Nat.ltb_spec 0 (rstart (tk_char_range t))); cbn [concat]; rewrite ?app_nil_r, ?spaces_repeat, ?Nat.sub_0_r; auto; try lia.
    - apply repeat_app.
    - replace (rstart (tk_char_range t)) with 0 by lia. rewrite Nat.add_0_r. reflexivity.
    - replace n with 0 by lia. reflexivity.
  Qed.
  Lemma prefix_moved sc ts i rs : entity_prefix sc (map (moved_token n) ts) i (map (moved n) rs) = entity_prefix sc ts i rs.
  Proof.
    unfold entity_prefix. rewrite index_map. destruct (index ts i) as [t| |]; auto. cbn [on_ok bind moved_token tk_char_range].
    assert (F : find (fun r => ranges_overlap r (moved n (tk_char_range t))) (map (moved n) rs)
                = option_map (moved n) (find (fun r => ranges_overlap r (tk_char_range t)) rs)).
    { induction rs as [|r rs IH]; auto. cbn [map find]. rewrite moved_overlap. destruct (ranges_overlap _ _); auto. }
    rewrite F. destruct (find _ rs) as [r|]; auto. cbn [option_map]. rewrite map_length.
    rewrite (filter_ext (fun j => match nth_error (map (moved_token n) ts) j with Some tj => ranges_overlap (tk_char_range tj) (moved n r) | None => false end)
      (fun j => match nth_error ts j with Some tj => ranges_overlap (tk_char_range tj) r | None => false end)); auto.
    intros j. rewrite nth_error_map. destruct (nth_error ts j); auto. cbn [option_map moved_token tk_char_range]. apply moved_overlap.
  Qed.
  Lemma unmoved_builtin kd sc res : (forall s kinds c m, rs_builtin res (padded n 0 s) kinds c m = on_ok (map (moved_entity n)) (rs_builtin res s kinds c m)) ->
    unmoved_feature (builtin_match_feature kd sc (rs_builtin res)).
  Proof.
    intros RB ts i. cbn [ft_compute builtin_match_feature]. rewrite string_moved. destruct (initial_string_from_tokens ts); auto. cbn [on_ok bind].
    rewrite RB. destruct (rs_builtin _ _ _ _ _); auto. cbn [on_ok bind]. rewrite map_map. rewrite <- (map_map be_range (moved n)). apply prefix_moved.
  Qed.

  Lemma unmoved_features g res l : (forall s kinds c m, rs_builtin res (padded n 0 s) kinds c m = on_ok (map (moved_entity n)) (rs_builtin res s kinds c m)) ->
    get_features x shape g res = Ok l -> forall fo, In fo l -> unmoved_feature (fo_feature fo).
  Proof.
    intros RB H. unfold get_features in H. cbv zeta in H. bind_inv H. injection H as <-. intros fo Hi. apply in_map_iff in Hi as (ft & <- & Hi).
    cbn [fo_feature]. revert E Hi.
    destruct (str_eqb (ff_name g) $"is_digit"); [intros [= <-] [<-|[]]; apply unmoved_digit|].
    destruct (str_eqb (ff_name g) $"length"); [intros [= <-] [<-|[]]; apply unmoved_length|].
    destruct (str_eqb (ff_name g) $"is_first"); [intros [= <-] [<-|[]]; intros ? ?; reflexivity|].
    destruct (str_eqb (ff_name g) $"is_last"); [intros [= <-] [<-|[]]; apply unmoved_last|].
    destruct (str_eqb (ff_name g) $"ngram").
    { unfold build_ngram. intros E. bind_inv E. bind_inv E. bind_inv E. bind_inv E. bind_inv E. injection E as <-. intros [<-|[]]. apply unmoved_ngram. }
    destruct (str_eqb (ff_name g) $"shape_ngram").
    { unfold build_shape_ngram. intros E. bind_inv E. injection E as <-. intros [<-|[]]. apply unmoved_shape. }
    destruct (str_eqb (ff_name g) $"prefix").
    { unfold build_prefix. intros E. bind_inv E. injection E as <-. intros [<-|[]]. apply unmoved_prefix. }
    destruct (str_eqb (ff_name g) $"suffix").
    { unfold build_suffix. intros E. bind_inv E. injection E as <-. intros [<-|[]]. apply unmoved_suffix. }
    destruct (str_eqb (ff_name g) $"entity_match").
    { unfold build_entity_match. intros E. bind_inv E. bind_inv E. bind_inv E. bind_inv E. bind_inv E. injection E as <-.
      intros Hi. apply in_map_iff in Hi as (e & <- & _). apply unmoved_entity. }
    destruct (str_eqb (ff_name g) $"builtin_entity_match").
    { unfold build_builtin_match. intros E. bind_inv E. bind_inv E. bind_inv E. intros Hi. destruct (mapM_In _ _ _ _ E Hi) as (kd & _ & Ek).
      bind_inv Ek. injection Ek as <-. apply unmoved_builtin, RB. }
    destruct (str_eqb (ff_name g) $"word_cluster"); [|discriminate].
    unfold build_word_cluster. intros E. bind_inv E. bind_inv E. injection E as <-. intros [<-|[]]. apply unmoved_cluster.
  Qed.

  Lemma features_moved fos ts : (forall fo, In fo fos -> unmoved_feature (fo_feature fo)) ->
    compute_features fos (map (moved_token n) ts) = compute_features fos ts.
  Proof.
    intros B. unfold compute_features. rewrite map_length. generalize (Ok (repeat (@nil (str * str)) (length ts))) as acc.
    induction fos as [|fo fos IH]; intros acc; auto. cbn [fold_left]. rewrite IH by (intros; apply B; right; auto). f_equal.
    generalize (seq 0 (length ts)) as is. intros is. revert acc. induction is as [|i is IHi]; intros acc; auto. cbn [fold_left]. rewrite IHi. f_equal.
    unfold push_feature. rewrite (B fo (or_introl eq_refl) ts i), map_length. reflexivity.
  Qed.

  Definition moved_sr (s : SlotRange) : SlotRange := mkSR (sr_name s) (moved n (sr_range s)) (moved n (sr_char_range s)).
  Lemma tags_moved ts st en : forall rest c i, tags_loop (map (moved_token n) ts) st en c i rest = on_ok (map moved_sr) (tags_loop ts st en c i rest).
  Proof.
    induction rest as [|tag rest IH]; intros c i; auto. cbn [tags_loop]. destruct (st i) as [s| |]; auto. cbn [bind].
    destruct (en i) as [e| |]; auto. cbn [bind]. destruct e; [|apply IH]. rewrite IH, !index_map. generalize (if s then i else c). intros j.
    destruct (index ts j); auto. cbn [on_ok bind]. destruct (index ts i); auto. cbn [on_ok bind]. destruct (tags_loop ts st en i (i + 1) rest); reflexivity.
  Qed.
  Lemma tags_bounds ts st en : forall rest c i l, tags_loop ts st en c i rest = Ok l -> forall s, In s l ->
    exists a b, In a ts /\ In b ts /\ sr_range s = (rstart (tk_range a), rend (tk_range b)).
  Proof.
    induction rest as [|tag rest IH]; intros c i l H s Hs; [injection H as <-; destruct Hs|]. cbn [tags_loop] in H.
    destruct (st i) as [b| |]; try discriminate. cbn [bind] in H. destruct (en i) as [e| |]; try discriminate. cbn [bind] in H.
    destruct e; [|eapply IH; eauto]. bind_inv H. bind_inv H. bind_inv H. injection H as <-. destruct Hs as [<-|Hs]; [|eapply IH; eauto].
    exists a, a0. repeat split; eapply nth_error_In; apply index_ok; eauto.
  Qed.
  Lemma byte_firstn i (s : str) : byte_len (firstn i s) <= byte_len s.
  Proof. revert i. induction s as [|c s IH]; intros [|i]; simpl; try lia. specialize (IH i). lia. Qed.
  Lemma slots_of_tags_moved s ts tags sc mp : tokens_ok s ts ->
    tags_to_slots (pad s) (map (moved_token n) ts) tags sc mp = on_ok (map (moved_internal n)) (tags_to_slots s ts tags sc mp).
  Proof.
    intros [T _]. unfold tags_to_slots.
    assert (E : tags_to_slot_ranges (map (moved_token n) ts) tags sc = on_ok (map moved_sr) (tags_to_slot_ranges ts tags sc)) by (destruct sc; apply tags_moved).
    rewrite E. clear E. destruct (tags_to_slot_ranges ts tags sc) as [l| |] eqn:E; auto. cbn [on_ok bind]. rewrite (mapM_map moved_sr).
    apply mapM_moved. intros sr Hsr. cbn [moved_sr sr_range sr_char_range sr_name].
    assert (B : exists a b, In a ts /\ In b ts /\ sr_range sr = (rstart (tk_range a), rend (tk_range b))) by (destruct sc; eapply tags_bounds; eauto).
    destruct B as (a & b & Ha & Hb & Es). destruct (T a Ha) as (_ & _ & Ta). destruct (T b Hb) as (_ & _ & Tb).
    assert (B1 : rstart (sr_range sr) <= byte_len s) by (rewrite Es, Ta; apply byte_firstn).
    assert (B2 : rend (sr_range sr) <= byte_len s) by (rewrite Es, Tb; apply byte_firstn).
    rewrite (pad_slice n k s _ B1 B2). destruct (byte_slice s (sr_range sr)); auto. cbn [bind]. destruct (sget _ mp); reflexivity.
  Qed.
  Lemma filler_moved cf s : (forall fos, cf_processor cf = Some fos -> forall fo, In fo fos -> unmoved_feature (fo_feature fo)) ->
    crf_get_slots x cf false (pad s) = on_ok (map (moved_internal n)) (crf_get_slots x cf false s).
  Proof.
    intros B. unfold crf_get_slots. destruct (cf_tagger cf) as [tg|]; auto. destruct (cf_processor cf) as [fos|]; auto.
    specialize (B fos eq_refl). cbv zeta. rewrite HT. pose proof (TO (cf_lang cf) s) as T.
    destruct (x_tokenize x (cf_lang cf) s) as [|t ts] eqn:E1; auto. rewrite (features_moved fos _ B). cbn [map].
    destruct (compute_features fos (t :: ts)); auto. cbn [bind]. destruct (tg_tag tg a); auto. cbn [bind]. destruct (mapM decode_tag a0); auto. cbn [bind].
    apply (slots_of_tags_moved s (t :: ts)). exact T.
  Qed.
End Feat.
