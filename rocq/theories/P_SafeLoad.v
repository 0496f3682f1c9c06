(** Loading does not panic. *)
From Coq Require Import String List NArith ZArith Bool Arith Lia.
From Verif Require Import Base F32 M_Types M_Engine M_Det M_Lookup M_Feat M_Prob M_Crf M_Features M_Filler
  M_Cache M_Res M_Fs M_Json M_Load S_Base S_Res S_Prob S_Load S_Safe
  P_Base P_Load P_Res P_Clusters P_Prob P_Safe.
Import ListNotations.
Local Open Scope nat_scope.

(** ** Decoders *)
Definition calm {A} (d : decoder A) : Prop := forall j, d j <> Panic.
Lemma calm_str : calm d_str. Proof. intros []; discriminate. Qed.
Lemma calm_bool : calm d_bool. Proof. intros []; discriminate. Qed.
Lemma calm_json : calm d_json. Proof. intros j; discriminate. Qed.
Lemma calm_int lo hi : calm (d_int lo hi).
Proof. intros []; try discriminate. unfold d_int. destruct (_ && _)%bool; discriminate. Qed.
Lemma calm_u8 : calm d_u8. Proof. intros j. apply safe_bind; [apply calm_int|discriminate]. Qed.
Lemma calm_usize : calm d_usize. Proof. intros j. apply safe_bind; [apply calm_int|discriminate]. Qed.
Lemma calm_vec {A} (d : decoder A) : calm d -> calm (d_vec d).
Proof. intros C []; try discriminate. apply safe_mapM. intros a _. apply C. Qed.
Lemma calm_pair {A B} (da : decoder A) (db : decoder B) : calm da -> calm db -> calm (d_pair da db).
Proof.
  intros Ca Cb []; try discriminate. destruct l as [|a [|b [|]]]; try discriminate.
  apply safe_bind; [apply Ca|intros ? _]. apply safe_bind; [apply Cb|discriminate].
Qed.
Lemma calm_map {K V} (eqb : K -> K -> bool) key ord (d : str -> decoder V) : (forall k, calm (d k)) -> calm (d_map eqb key ord d).
Proof.
  intros C []; try discriminate. cbn [d_map]. apply safe_bind; [|discriminate]. apply safe_mapM. intros a _.
  apply safe_bind; [apply safe_ok_or|intros ? _]. apply safe_bind; [apply C|discriminate].
Qed.
Lemma calm_smap {V} ord (d : decoder V) : calm d -> calm (d_smap ord d).
Proof. intros C. apply calm_map. intros _. exact C. Qed.
Lemma calm_nullable {A} (d : decoder A) : calm d -> calm (nullable d).
Proof. intros C []; cbn [nullable]; try discriminate; (apply safe_bind; [apply C|discriminate]). Qed.
Lemma calm_required {A} (d : decoder A) v : calm d -> required d v <> Panic.
Proof. intros C. destruct v; [apply C|discriminate|discriminate]. Qed.
Lemma calm_optional {A} (d : decoder A) v : calm d -> optional d v <> Panic.
Proof. intros C. destruct v; [apply calm_nullable, C|discriminate|discriminate]. Qed.
Lemma calm_defaulted {A} (a : A) (d : decoder A) v : calm d -> defaulted a d v <> Panic.
Proof. intros C. destruct v; [apply C|discriminate|discriminate]. Qed.
Lemma calm_fields names j : fields names j <> Panic.
Proof.
  destruct j; try discriminate; cbn [fields].
  - destruct (_ <? _); discriminate.
  - apply safe_mapM. intros n _. unfold find_field. destruct (filter _ _) as [|a [|]]; discriminate.
Qed.
Lemma calm_f32 n : calm (d_f32 n). Proof. intros j. apply safe_ok_or. Qed.

Ltac calm :=
  repeat first
    [ discriminate | apply safe_ok_or | apply calm_fields | apply calm_str | apply calm_bool | apply calm_json | apply calm_u8
    | apply calm_usize | apply calm_int | apply calm_f32 | assumption
    | apply calm_vec | apply calm_pair | apply calm_smap | apply calm_map; intros ?
    | apply calm_nullable | apply calm_required | apply calm_optional | apply calm_defaulted
    | apply safe_bind; [|intros ? _]
    | match goal with |- match ?v with _ => _ end <> Panic => destruct v end ].
Lemma calm_entity : calm d_entity. Proof. intros j. unfold d_entity. calm. Qed.
Lemma calm_dataset o : calm (d_dataset o).
Proof. pose proof calm_entity. intros j. unfold d_dataset. calm. Qed.
Lemma calm_engine o : calm (d_engine o).
Proof. pose proof (calm_dataset o). intros j. unfold d_engine. calm. Qed.
Lemma calm_version : calm d_model_version. Proof. intros j. unfold d_model_version. calm. Qed.
Lemma calm_unit : calm d_unit.
Proof.
  intros []; try discriminate; cbn [d_unit].
  { destruct l as [|v [|]]; try discriminate. destruct v; cbn [d_str bind]; try discriminate. destruct (unit_of s); discriminate. }
  apply safe_bind; [|intros ? _; calm].
  unfold find_field. destruct (filter _ _) as [|a [|]]; discriminate.
Qed.
Lemma calm_resources : calm d_resources. Proof. intros j. unfold d_resources. calm. Qed.
Lemma calm_usage : calm d_usage.
Proof. intros j. unfold d_usage. apply safe_bind; [apply calm_u8|]. intros [|[|[|]]] _; discriminate. Qed.
Lemma calm_custom : calm d_custom_metadata.
Proof. pose proof calm_usage. intros j. unfold d_custom_metadata. calm. Qed.
Lemma calm_parser_config : calm d_parser_config. Proof. intros j. unfold d_parser_config. calm. Qed.
Lemma calm_deterministic o : calm (d_deterministic o).
Proof. pose proof calm_parser_config. intros j. unfold d_deterministic. calm. Qed.
Lemma calm_entity_scope : calm d_entity_scope. Proof. intros j. unfold d_entity_scope. calm. Qed.
Lemma calm_grouped : calm d_grouped_scope.
Proof. pose proof calm_entity_scope. intros j. unfold d_grouped_scope. calm. Qed.
Lemma calm_lookup o : calm (d_lookup o).
Proof. pose proof calm_parser_config. pose proof calm_grouped. intros j. unfold d_lookup, d_i32. calm. Qed.
Lemma calm_filler_metadata : calm d_filler_metadata. Proof. intros j. unfold d_filler_metadata. calm. Qed.
Lemma calm_probabilistic : calm d_probabilistic.
Proof. pose proof calm_filler_metadata. intros j. unfold d_probabilistic. calm. Qed.
Lemma calm_classifier n : calm (d_classifier n). Proof. intros j. unfold d_classifier. calm. Qed.
Lemma calm_featurizer : calm d_featurizer. Proof. intros j. unfold d_featurizer. calm. Qed.
Lemma calm_tfidf_config : calm d_tfidf_config. Proof. intros j. unfold d_tfidf_config. calm. Qed.
Lemma calm_sklearn n o : calm (d_sklearn n o). Proof. intros j. unfold d_sklearn. calm. Qed.
Lemma calm_tfidf n o : calm (d_tfidf n o).
Proof. pose proof calm_tfidf_config. pose proof (calm_sklearn n o). intros j. unfold d_tfidf. calm. Qed.
Lemma calm_cooc_config : calm d_cooc_config. Proof. intros j. unfold d_cooc_config. calm. Qed.
Lemma calm_cooccurrence o : calm (d_cooccurrence o).
Proof. pose proof calm_cooc_config. intros j. unfold d_cooccurrence. calm. Qed.
Lemma calm_factory o : calm (d_factory o). Proof. intros j. unfold d_factory, d_i32. calm. Qed.
Lemma calm_filler_config o : calm (d_filler_config o).
Proof. pose proof (calm_factory o). intros j. unfold d_filler_config. calm. Qed.
Lemma calm_filler o : calm (d_filler o).
Proof. pose proof (calm_filler_config o). intros j. unfold d_filler. calm. Qed.

(** ** Units *)
Lemma calm_args a k : parse_as_string a k <> Panic /\ parse_as_opt_string a k <> Panic /\ parse_as_bool a k <> Panic /\
  parse_as_u64 a k <> Panic /\ parse_as_vec_string a k <> Panic.
Proof.
  unfold parse_as_string, parse_as_opt_string, parse_as_bool, parse_as_u64, parse_as_vec_string.
  repeat split; (apply safe_bind; [apply safe_ok_or|intros v _]).
  - destruct v; discriminate.
  - discriminate.
  - destruct v; discriminate.
  - destruct v; try discriminate. destruct (_ && _)%bool; discriminate.
  - destruct v; try discriminate. apply safe_mapM. intros [] _; discriminate.
Qed.
Lemma calm_scheme i : scheme_from_u8 i <> Panic.
Proof. destruct i as [|[|[|]]]; discriminate. Qed.
Lemma calm_processor x shape fs res : processor_new x shape fs res <> Panic.
Proof.
  unfold processor_new. apply safe_bind; [|discriminate]. apply safe_mapM. intros ff _. unfold get_features.
  apply safe_bind; [|discriminate].
  assert (A := calm_args (ff_args ff)).
  repeat match goal with |- (if ?b then _ else _) <> Panic => destruct b end; try discriminate.
  - unfold build_ngram. destruct (A $"n") as (_ & _ & _ & N & _). destruct (A $"common_words_gazetteer_name") as (_ & C & _).
    destruct (A $"use_stemming") as (_ & _ & S & _). calm.
  - unfold build_shape_ngram. destruct (A $"n") as (_ & _ & _ & N & _). calm.
  - unfold build_prefix. destruct (A $"prefix_size") as (_ & _ & _ & N & _). calm.
  - unfold build_suffix. destruct (A $"suffix_size") as (_ & _ & _ & N & _). calm.
  - unfold build_entity_match. destruct (A $"entities") as (_ & _ & _ & _ & N).
    destruct (A $"tagging_scheme_code") as (_ & _ & _ & C & _). destruct (A $"use_stemming") as (_ & _ & S & _).
    pose proof calm_scheme. calm. auto.
  - unfold build_builtin_match. destruct (A $"entity_labels") as (_ & _ & _ & _ & N).
    destruct (A $"tagging_scheme_code") as (_ & _ & _ & C & _). calm.
    + apply calm_scheme.
    + apply safe_mapM. intros l _. calm.
  - unfold build_word_cluster. destruct (A $"cluster_name") as (N & _). calm.
Qed.

Section Loading.
  Context (x : Ext) (shape : str -> str) (ngrams : list str -> nat -> list str) (mx : Math) (L : Loader)
          (fo : path -> orders) (uo : path -> nat -> HashOrder) (f : fs)
          (Files : crash_free_files L f) (Ext_ok : loaders_calm L f).

  Lemma calm_file p : read_file f p <> Panic.
  Proof. unfold read_file. destruct (f (resolve p)) as [[]|]; discriminate. Qed.
  Lemma calm_read {A} p (d : decoder A) : calm d -> read_json L f p d <> Panic.
  Proof.
    intros C. unfold read_json. apply safe_bind; [apply calm_file|intros ? _].
    apply safe_bind; [apply safe_ok_or|intros ? _]. apply C.
  Qed.
  Lemma calm_named {A} (read : path -> str -> outcome A) dir names :
    (forall l n c, names = Some l -> In n l -> f (resolve (with_extension (pjoin dir n) $"txt")) = Some (File c) ->
       read (with_extension (pjoin dir n) $"txt") c <> Panic) ->
    load_named read f dir names <> Panic.
  Proof.
    intros R. unfold load_named. destruct names as [l|]; [|discriminate].
    assert (R' : forall n c, In n l -> f (resolve (with_extension (pjoin dir n) $"txt")) = Some (File c) ->
       read (with_extension (pjoin dir n) $"txt") c <> Panic) by (intros n c; apply (R l n c eq_refl)).
    clear R. revert R'. assert (S : Ok (@nil (str * A)) <> Panic) by discriminate. revert S.
    generalize (Ok (@nil (str * A))) as acc. induction l as [|n l IH]; intros acc S R; [exact S|]. cbn [fold_left]. apply IH.
    - apply safe_bind; [exact S|intros m _]. apply safe_bind; [apply calm_file|intros c E].
      apply safe_bind; [|discriminate]. apply R; [left; reflexivity|].
      unfold read_file in E. destruct (f (resolve _)) as [[c'|]|]; try discriminate. injection E as ->. reflexivity.
    - intros n' c Hn. apply R. right. exact Hn.
  Qed.

  Lemma resources_calm p m : resources_of x L uo f p m <> Panic.
  Proof.
    destruct Files as [_ Cl]. destruct Ext_ok as (_ & B & G & _).
    unfold resources_of. apply safe_bind; [apply safe_ok_or|intros l _]. unfold load_shared_resources.
    set (dir := pjoin _ (ld_lang_name L l)). clearbody dir.
    apply safe_bind; [apply calm_read, calm_resources|intros rm E]. apply read_json_ok in E as (j & J & D).
    apply safe_bind.
    { unfold load_stemmer. destruct (rm_stems rm); [|discriminate]. apply safe_bind; [apply calm_file|intros c _].
      destruct (stem_total (x_hash x) c) as (sm & ->). discriminate. }
    intros st _. apply safe_bind; [apply calm_named; discriminate|intros gs _].
    apply safe_bind.
    { apply calm_named. intros names n c En Hn Hc. apply safe_bind; [|discriminate].
      pose proof (clusters_loads (uo (with_extension (pjoin (pjoin dir $"word_clusters") n) $"txt") 0) (x_hash x) c
                    (csv_records tab c) (proj2 (table_iff _ _ _) eq_refl)) as H.
      destruct (csv_records tab c) as [|first rest] eqn:Er; [rewrite H; discriminate|].
      destruct H as [(One & _)|[(_ & _ & ->)|(_ & _ & cl & ->)]]; try discriminate.
      exfalso. apply (Cl dir j rm names n c first rest J D En Hn Hc); [|exact One].
      apply table_iff. symmetry. exact Er. }
    intros cs _. apply safe_bind.
    { unfold load_stop_words. destruct (rm_stop_words rm); [|discriminate]. apply safe_bind; [apply calm_file|discriminate]. }
    intros sw _. apply safe_bind; [unfold load_builtin; apply safe_bind; [apply B|discriminate]|intros b _].
    apply safe_bind; [|discriminate]. unfold load_custom. apply safe_bind; [apply calm_read, calm_custom|intros cm _].
    apply safe_bind; [apply safe_ok_or|intros lg _]. apply safe_bind; [apply G|discriminate].
  Qed.

  Lemma tfidf_calm p res : load_tfidf x L fo f p res <> Panic.
  Proof.
    unfold load_tfidf. apply safe_bind; [apply calm_read, calm_tfidf|intros m _]. unfold tfidf_new. calm.
    apply safe_mapM. intros e _. apply safe_ok_or.
  Qed.
  Lemma cooc_calm p res : load_cooc x L fo f p res <> Panic.
  Proof.
    unfold load_cooc. apply safe_bind; [apply calm_read, calm_cooccurrence|intros m _]. unfold cooc_new. calm.
    apply safe_mapM. intros e _. apply safe_ok_or.
  Qed.
  Lemma featurizer_calm p res : load_featurizer x L fo f p res <> Panic.
  Proof.
    unfold load_featurizer. apply safe_bind; [apply calm_read, calm_featurizer|intros m _].
    apply safe_bind; [apply tfidf_calm|intros t _]. apply safe_bind; [|discriminate]. destruct (snd m); [|discriminate].
    apply safe_bind; [apply cooc_calm|discriminate].
  Qed.
  Lemma classifier_calm p res : load_classifier x ngrams L fo uo f p res <> Panic.
  Proof.
    unfold load_classifier. apply safe_bind; [apply calm_read, calm_classifier|intros m E].
    apply read_json_ok in E as (j & J & D). apply safe_bind.
    { destruct (clm_featurizer m); [|discriminate]. apply safe_bind; [apply featurizer_calm|discriminate]. }
    intros fz _. apply safe_bind; [|discriminate]. destruct (clm_intercept m) as [i|] eqn:Ei; [|discriminate].
    destruct (clm_coeffs m) as [c|] eqn:Ec; [|discriminate]. apply safe_bind; [|discriminate].
    pose proof (logreg_new_spec i c) as H. destruct (logreg_new i c); try discriminate.
    exfalso. apply H. exact (proj1 Files _ _ _ _ _ J D Ei Ec).
  Qed.
  Lemma filler_calm p res : build_slot_filler x shape L fo f p res <> Panic.
  Proof.
    unfold build_slot_filler. apply safe_bind; [apply calm_read, calm_unit|intros u _]. destruct u; try discriminate.
    apply safe_bind; [|discriminate]. unfold load_crf. apply safe_bind; [apply calm_read, calm_filler|intros m _].
    unfold crf_new. apply safe_bind; [apply calm_scheme|intros s _]. apply safe_bind; [|intros tp _; calm].
    destruct (sm_crf_file m); [|discriminate]. apply safe_bind; [apply Ext_ok|intros t _].
    apply safe_bind; [apply calm_processor|discriminate].
  Qed.
  Lemma parser_calm p u res : build_intent_parser x shape ngrams mx L fo uo f p u res <> Panic.
  Proof.
    unfold build_intent_parser. destruct u; try discriminate; (apply safe_bind; [|discriminate]).
    - unfold load_deterministic. apply safe_bind; [apply calm_read, calm_deterministic|intros m _]. unfold det_new.
      apply safe_bind; [apply safe_ok_or|intros l _]. apply safe_bind; [|discriminate]. apply safe_mapM. intros ip _.
      apply safe_bind; [|discriminate]. apply safe_mapM. intros r _. apply Ext_ok.
    - unfold load_lookup. apply safe_bind; [apply calm_read, calm_lookup|intros m _]. unfold lookup_new. calm.
    - unfold load_probabilistic. apply safe_bind; [apply calm_read, calm_probabilistic|intros m _]. apply safe_bind.
      { unfold build_intent_classifier. apply safe_bind; [apply calm_read, calm_unit|intros u _]. destruct u; try discriminate.
        apply safe_bind; [apply classifier_calm|discriminate]. }
      intros c _. apply safe_bind; [|discriminate]. apply safe_mapM. intros md _. apply safe_bind; [apply filler_calm|discriminate].
  Qed.

  Lemma loading_never_panics p : from_path x shape ngrams mx L fo uo f p <> Panic.
  Proof.
    unfold from_path. apply safe_bind.
    { unfold load_model, check_model_version. apply safe_bind; [|intros ? _; apply calm_read, calm_engine].
      apply safe_bind; [apply calm_read, calm_version|intros v _]. destruct (str_eqb _ _); discriminate. }
    intros m _. apply safe_bind; [apply resources_calm|intros res _]. apply safe_bind; [|discriminate].
    apply safe_mapM. intros name _. apply safe_bind; [apply calm_read, calm_unit|intros u _]. apply parser_calm.
  Qed.
End Loading.
