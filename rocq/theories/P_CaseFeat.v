(** Proofs for C83: classifier and slot filler. *)
From Coq Require Import String List NArith ZArith Bool Arith Lia Permutation.
From Verif Require Import Base Sorting F32 M_Types M_Utils M_Engine M_Det M_Feat M_Prob M_Features M_Crf M_Filler M_Fs M_Json M_Load
  S_Base S_Load S_Made S_Seeds S_Case P_Base P_Rules P_Case.
Import ListNotations.
Local Open Scope list_scope.
Local Open Scope nat_scope.

Section Feat.
  Context (x : Ext) (shape : str -> str) (ngrams : list str -> nat -> list str).
  Notation alike := (same_text x).
  Hypothesis HL : forall s s', alike s s' -> x_lower x s = x_lower x s'.
  Hypothesis HN : forall s s', alike s s' -> x_normalize x s = x_normalize x s'.
  Hypothesis HT : forall l s s', alike s s' -> Forall2 (same_token x) (x_tokenize x l s) (x_tokenize x l s').
  Hypothesis HW : forall l s s', alike s s' -> Forall2 alike (x_tokenize_light x l s) (x_tokenize_light x l s').
  Hypothesis HG : forall ws ws' n, Forall2 alike ws ws' -> Forall2 alike (ngrams ws n) (ngrams ws' n).
  Hypothesis HD : forall c c', same_letter x c c' -> (48 <= c <= 57)%N -> c = c'.

  (** ** Classifier *)
  Lemma words_rel tv s s' : blind_resources x (tv_res tv) -> alike s s' -> tfidf_words x ngrams tv s = tfidf_words x ngrams tv s'.
  Proof.
    intros RB H. unfold tfidf_words. set (l := tv_lang tv). pose proof (HW l _ _ H) as T.
    assert (E : normalize_stem x (tv_stemmer tv) (x_tokenize_light x l s) = normalize_stem x (tv_stemmer tv) (x_tokenize_light x l s')).
    { unfold normalize_stem. destruct (tv_stemmer tv); eapply map_rel_eq; try exact T; intros a a' Ha; rewrite (HN _ _ Ha); reflexivity. }
    rewrite <- E, <- (proj1 RB _ _ (Some (tv_scope tv)) true 0 H). destruct (rs_builtin _ _ _ _ _); auto. cbn [bind].
    destruct (rs_custom _ _ _ _); auto. cbn [bind]. do 4 f_equal. destruct (tv_clusterer tv) as [c|]; auto.
    unfold word_clusters. f_equal. rewrite <- (rel_length _ _ _ T). pose proof (HG _ _ (length (x_tokenize_light x l s)) T) as G.
    induction G as [|g g' gs gs' Hg F IH]; auto. cbn [filter_map]. rewrite <- (HL _ _ Hg), IH. reflexivity.
  Qed.
  Lemma featurize_rel o1 o2 fz s s' : blind_resources x (tv_res (fz_tfidf fz)) -> fz_cooc fz = None -> alike s s' ->
    featurize x ngrams o1 o2 fz s = featurize x ngrams o1 o2 fz s'.
  Proof. intros RB N H. unfold featurize, tfidf_transform. rewrite N, (words_rel _ _ _ RB H). reflexivity. Qed.
  Lemma classifier_rel mx c s s' wl : (forall t, cl_featurizer c = Some t -> t s = t s') -> alike s s' ->
    get_intents_with_whitelist mx c s wl = get_intents_with_whitelist mx c s' wl.
  Proof.
    intros Ht H. unfold get_intents_with_whitelist. destruct (_ <=? 1); auto. destruct H as [|ch ch' s s' Hc F]; auto.
    destruct (cl_featurizer c) as [t|]; auto. destruct (cl_logreg c); auto. rewrite (Ht t eq_refl). reflexivity.
  Qed.

  (** ** Features of the slot filler *)
  Definition blind_feature (ft : Feature) : Prop :=
    forall ts ts' i, Forall2 (same_token x) ts ts' -> ft_compute ft ts i = ft_compute ft ts' i.

  Lemma letter_sym c c' : same_letter x c c' -> same_letter x c' c.
  Proof. intros [->|(A & B & C & D)]; [left; auto|right; auto]. Qed.
  Lemma digit_letter c c' : same_letter x c c' -> is_ascii_digit c = is_ascii_digit c'.
  Proof.
    intros H. destruct (is_ascii_digit c) eqn:E.
    - unfold is_ascii_digit in E. apply andb_prop in E as [A B]. apply N.leb_le in A, B. rewrite <- (HD c c' H (conj A B)).
      unfold is_ascii_digit. symmetry. apply andb_true_intro. split; apply N.leb_le; auto.
    - destruct (is_ascii_digit c') eqn:E'; auto. assert (Q := E'). unfold is_ascii_digit in Q. apply andb_prop in Q as [A B]. apply N.leb_le in A, B.
      pose proof (HD c' c (letter_sym _ _ H) (conj A B)) as Q. rewrite Q, E in E'. discriminate.
  Qed.
  Lemma digits_text s s' : alike s s' -> forallb is_ascii_digit s = forallb is_ascii_digit s'.
  Proof. induction 1 as [|c c' s s' Hc F IH]; simpl; auto. rewrite (digit_letter _ _ Hc), IH. reflexivity. Qed.

  Ltac at_token F i :=
    pose proof (index_rel _ _ _ F i) as R; destruct (index _ i) as [t| |]; destruct (index _ i) as [t'| |];
    simpl in R; try contradiction; subst; auto; cbn [bind].

  Lemma blind_digit : blind_feature is_digit_feature.
  Proof. intros ts ts' i F. simpl. at_token F i. rewrite (digits_text _ _ (proj2 (proj2 R))). reflexivity. Qed.
  Lemma blind_length : blind_feature length_feature.
  Proof. intros ts ts' i F. simpl. at_token F i. rewrite (text_length _ _ _ (proj2 (proj2 R))). reflexivity. Qed.
  Lemma blind_last : blind_feature is_last_feature.
  Proof. intros ts ts' i F. simpl. rewrite (rel_length _ _ _ F). reflexivity. Qed.
  Lemma stem_text st v v' : alike v v' -> stem_normalize x st v = stem_normalize x st v'.
  Proof. intros H. unfold stem_normalize. rewrite (HN _ _ H). reflexivity. Qed.
  Lemma blind_ngram n g st : blind_feature (ngram_feature x n g st).
  Proof.
    intros ts ts' i F. unfold ngram_feature, slice. cbn [ft_compute]. rewrite <- (rel_length _ _ _ F). destruct (_ <? _); auto. destruct (_ && _); auto.
    cbn [bind]. do 3 f_equal. eapply map_rel_eq; [|apply firstn_rel, skipn_rel, F]. intros t t' (_ & _ & Ht). unfold ngram_word.
    rewrite (stem_text st _ _ Ht). reflexivity.
  Qed.
  Lemma blind_prefix n : blind_feature (prefix_feature x n).
  Proof. intros ts ts' i F. simpl. at_token F i. rewrite (HN _ _ (proj2 (proj2 R))). reflexivity. Qed.
  Lemma blind_suffix n : blind_feature (suffix_feature x n).
  Proof. intros ts ts' i F. simpl. at_token F i. rewrite (HN _ _ (proj2 (proj2 R))). reflexivity. Qed.
  Lemma blind_cluster n c : blind_feature (word_cluster_feature x n c).
  Proof. intros ts ts' i F. simpl. at_token F i. rewrite (HL _ _ (proj2 (proj2 R))). reflexivity. Qed.
  Lemma transform_rel st ts ts' : Forall2 (same_token x) ts ts' -> transform_tokens x ts st = transform_tokens x ts' st.
  Proof.
    unfold transform_tokens. generalize 0 at 1 3. generalize 0. intros b c F. revert b c.
    induction F as [|t t' ts ts' (_ & _ & Ht) F IH]; intros b c; simpl; auto. rewrite (stem_text st _ _ Ht), IH. reflexivity.
  Qed.
  Lemma blind_entity e sc st parser : blind_feature (entity_match_feature x e sc st parser).
  Proof. intros ts ts' i F. simpl. rewrite (transform_rel st _ _ F). reflexivity. Qed.
  Lemma string_rel ts ts' : Forall2 (same_token x) ts ts' -> same_out alike (initial_string_from_tokens ts) (initial_string_from_tokens ts').
  Proof.
    intros F. unfold initial_string_from_tokens. rewrite <- (rel_length _ _ _ F). destruct (usub _ _); [|reflexivity|exact I]. cbn [bind same_out].
    generalize 0. induction F as [|t t' ts ts' (T1 & T2 & T3) F IH]; intros n; cbn [token_chunks concat]; [constructor|].
    rewrite <- T2. rewrite !concat_app. apply text_app; [apply text_refl|]. cbn [concat app]. rewrite !app_nil_r. apply text_app; [exact T3|apply IH].
  Qed.
  Lemma prefix_rel sc ts ts' i rs : Forall2 (same_token x) ts ts' -> entity_prefix sc ts i rs = entity_prefix sc ts' i rs.
  Proof.
    intros F. unfold entity_prefix. at_token F i. destruct R as (_ & R2 & _). rewrite <- R2. destruct (find _ rs) as [r|]; auto.
    rewrite <- (rel_length _ _ _ F). rewrite (filter_ext (fun j => match nth_error ts j with Some tj => ranges_overlap (tk_char_range tj) r | None => false end)
      (fun j => match nth_error ts' j with Some tj => ranges_overlap (tk_char_range tj) r | None => false end)); auto.
    intros j. pose proof (index_rel _ _ _ F j) as Q. unfold index in Q. destruct (nth_error ts j), (nth_error ts' j); simpl in Q; try contradiction; auto.
    destruct Q as (_ & -> & _). reflexivity.
  Qed.
  Lemma blind_builtin k sc res : blind_resources x res -> blind_feature (builtin_match_feature k sc (rs_builtin res)).
  Proof.
    intros RB ts ts' i F. simpl. pose proof (string_rel _ _ F) as S. destruct (initial_string_from_tokens ts), (initial_string_from_tokens ts');
      simpl in S; try contradiction; subst; auto. cbn [bind]. rewrite <- (proj1 RB _ _ (Some [k]) true 0 S). destruct (rs_builtin _ _ _ _ _); auto. cbn [bind].
    apply prefix_rel, F.
  Qed.

  Lemma blind_features g res l : blind_resources x res -> ff_name g <> $"shape_ngram" -> get_features x shape g res = Ok l ->
    forall fo, In fo l -> blind_feature (fo_feature fo).
  Proof.
    intros RB Ns H. unfold get_features in H. cbv zeta in H. bind_inv H. injection H as <-. intros fo Hi. apply in_map_iff in Hi as (ft & <- & Hi).
    cbn [fo_feature]. revert E Hi.
    destruct (str_eqb (ff_name g) $"is_digit"); [intros [= <-] [<-|[]]; apply blind_digit|].
    destruct (str_eqb (ff_name g) $"length"); [intros [= <-] [<-|[]]; apply blind_length|].
    destruct (str_eqb (ff_name g) $"is_first"); [intros [= <-] [<-|[]]; intros ? ? ? ?; reflexivity|].
    destruct (str_eqb (ff_name g) $"is_last"); [intros [= <-] [<-|[]]; apply blind_last|].
    destruct (str_eqb (ff_name g) $"ngram").
    { unfold build_ngram. intros E. bind_inv E. bind_inv E. bind_inv E. bind_inv E. bind_inv E. injection E as <-. intros [<-|[]]. apply blind_ngram. }
    destruct (str_eqb (ff_name g) $"shape_ngram") eqn:Es; [apply str_eqb_spec in Es; contradiction|].
    destruct (str_eqb (ff_name g) $"prefix").
    { unfold build_prefix. intros E. bind_inv E. injection E as <-. intros [<-|[]]. apply blind_prefix. }
    destruct (str_eqb (ff_name g) $"suffix").
    { unfold build_suffix. intros E. bind_inv E. injection E as <-. intros [<-|[]]. apply blind_suffix. }
    destruct (str_eqb (ff_name g) $"entity_match").
    { unfold build_entity_match. intros E. bind_inv E. bind_inv E. bind_inv E. bind_inv E. bind_inv E. injection E as <-.
      intros Hi. apply in_map_iff in Hi as (e & <- & _). apply blind_entity. }
    destruct (str_eqb (ff_name g) $"builtin_entity_match").
    { unfold build_builtin_match. intros E. bind_inv E. bind_inv E. bind_inv E. intros Hi. destruct (mapM_In _ _ _ _ E Hi) as (k & _ & Ek).
      bind_inv Ek. injection Ek as <-. apply blind_builtin, RB. }
    destruct (str_eqb (ff_name g) $"word_cluster"); [|discriminate].
    unfold build_word_cluster. intros E. bind_inv E. bind_inv E. injection E as <-. intros [<-|[]]. apply blind_cluster.
  Qed.

  Lemma features_rel fos ts ts' : (forall fo, In fo fos -> blind_feature (fo_feature fo)) -> Forall2 (same_token x) ts ts' ->
    compute_features fos ts = compute_features fos ts'.
  Proof.
    intros B F. unfold compute_features. rewrite <- (rel_length _ _ _ F). generalize (Ok (repeat (@nil (str * str)) (length ts))) as acc.
    induction fos as [|fo fos IH]; intros acc; auto. cbn [fold_left]. rewrite IH by (intros; apply B; right; auto). f_equal.
    generalize (seq 0 (length ts)) as is. intros is. revert acc. induction is as [|i is IHi]; intros acc; auto. cbn [fold_left]. rewrite IHi. f_equal.
    unfold push_feature. rewrite (B fo (or_introl eq_refl) ts ts' i F), (rel_length _ _ _ F). reflexivity.
  Qed.

  Lemma tags_rel ts ts' st en : Forall2 (same_token x) ts ts' -> forall rest c i, tags_loop ts st en c i rest = tags_loop ts' st en c i rest.
  Proof.
    intros F. induction rest as [|tag rest IH]; intros c i; auto. cbn [tags_loop]. destruct (st i) as [s| |]; auto. cbn [bind].
    destruct (en i) as [e| |]; auto. cbn [bind]. destruct e; [|apply IH]. rewrite IH. clear IH. generalize (if s then i else c). intros k.
    pose proof (index_rel _ _ _ F k) as R. pose proof (index_rel _ _ _ F i) as R'.
    destruct (index ts k), (index ts' k); simpl in R; try contradiction; subst; auto. cbn [bind].
    destruct (index ts i), (index ts' i); simpl in R'; try contradiction; subst; auto. cbn [bind].
    destruct R as (-> & -> & _). destruct R' as (-> & -> & _). reflexivity.
  Qed.
  Lemma slots_of_tags_rel s s' ts ts' tags sc mp : alike s s' -> Forall2 (same_token x) ts ts' ->
    same_out (Forall2 (same_internal x)) (tags_to_slots s ts tags sc mp) (tags_to_slots s' ts' tags sc mp).
  Proof.
    intros H F. unfold tags_to_slots.
    assert (E : tags_to_slot_ranges ts tags sc = tags_to_slot_ranges ts' tags sc) by (destruct sc; cbn [tags_to_slot_ranges]; apply tags_rel, F).
    rewrite <- E. destruct (tags_to_slot_ranges ts tags sc); [|reflexivity|exact I]. cbn [bind]. apply out_mapM_same. intros sr _.
    eapply out_bind; [apply text_slice; exact H|]. intros v v' Hv. destruct (sget _ mp); [|reflexivity]. cbn [ok_or bind same_out]. repeat split. exact Hv.
  Qed.
  Lemma filler_rel cf s s' : alike s s' -> (forall fos, cf_processor cf = Some fos -> forall fo, In fo fos -> blind_feature (fo_feature fo)) ->
    same_out (Forall2 (same_internal x)) (crf_get_slots x cf false s) (crf_get_slots x cf false s').
  Proof.
    intros H B. unfold crf_get_slots. destruct (cf_tagger cf) as [tg|]; [|constructor]. destruct (cf_processor cf) as [fos|]; [|constructor].
    specialize (B fos eq_refl). pose proof (HT (cf_lang cf) _ _ H) as F. cbv zeta.
    destruct (x_tokenize x (cf_lang cf) s) as [|t ts] eqn:E1, (x_tokenize x (cf_lang cf) s') as [|t' ts'] eqn:E2; try (inversion F; fail); [constructor|].
    rewrite <- (features_rel fos _ _ B F). destruct (compute_features fos (t :: ts)); [|reflexivity|exact I]. cbn [bind].
    destruct (tg_tag tg a); [|reflexivity|exact I]. cbn [bind]. destruct (mapM decode_tag a0); [|reflexivity|exact I]. cbn [bind].
    apply slots_of_tags_rel; auto.
  Qed.
End Feat.
