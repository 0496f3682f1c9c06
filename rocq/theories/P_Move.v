(** Lemmas about engines in another directory. *)
From Coq Require Import String List NArith ZArith Bool Arith Lia.
From Verif Require Import Base F32 M_Types M_Engine M_Det M_Lookup M_Feat M_Prob M_Features M_Filler M_Crf
  M_Cache M_Res M_Fs M_Json M_Load S_Load P_Base P_Load.
Import ListNotations.
Local Open Scope nat_scope.

Section Move.
  Context (x : Ext) (shape : str -> str) (ngrams : list str -> nat -> list str) (mx : Math) (L : Loader)
          (fo fo' : path -> orders) (uo uo' : path -> nat -> HashOrder) (f f' : fs) (p p' : path).
  Hypothesis SC : same_contents f (resolve p) f' (resolve p').
  Hypothesis LR : loaders_relative L.
  Hypothesis FO : forall c, fo (p ++ map CName c) = fo' (p' ++ map CName c).
  Hypothesis UO : forall c, uo (p ++ map CName c) = uo' (p' ++ map CName c).
  Hypothesis PL : forall names j s, json_at L f (p ++ map CName names) j -> text_in s j -> plain s.
  Hypothesis PLang : forall l, plain (ld_lang_name L l).

  (** The same place in the two directories. *)
  Definition twin (q q' : path) : Prop := exists c, q = p ++ map CName c /\ q' = p' ++ map CName c.

  Lemma twin_refl : twin p p'.
  Proof. exists []. split; symmetry; apply app_nil_r. Qed.
  Lemma twin_join q q' s : twin q q' -> plain s -> twin (pjoin q s) (pjoin q' s).
  Proof.
    intros (c & -> & ->) P. destruct (plain_names s P) as (c' & E). destruct P as [A _].
    unfold pjoin. rewrite A, E. exists (c ++ c'). rewrite map_app, !app_assoc. auto.
  Qed.
  Lemma twin_extension c ext q q' : c <> [] -> q = p ++ map CName c -> q' = p' ++ map CName c ->
    twin (with_extension q ext) (with_extension q' ext).
  Proof.
    intros N -> ->. assert (map CName c <> []) by (destruct c; [contradiction|discriminate]).
    rewrite !with_extension_app by assumption. destruct (with_extension_names c ext) as (c' & ->). exists c'. auto.
  Qed.
  Lemma twin_file q q' n s : twin q q' -> plain s -> plain n -> components n <> [] ->
    twin (with_extension (pjoin (pjoin q n) s) $"txt") (with_extension (pjoin (pjoin q' n) s) $"txt").
  Proof.
    intros (c & -> & ->) P Pn Nn. destruct (plain_names s P) as (c' & E). destruct (plain_names n Pn) as (c2 & E2).
    destruct P as [A _], Pn as [A2 _]. rewrite E2 in Nn.
    apply (twin_extension (c ++ c2 ++ c')).
    - destruct c; [|discriminate]. destruct c2; [contradiction|discriminate].
    - unfold pjoin. rewrite A, A2, E, E2, !map_app, !app_assoc. reflexivity.
    - unfold pjoin. rewrite A, A2, E, E2, !map_app, !app_assoc. reflexivity.
  Qed.
  Lemma twin_fo q q' : twin q q' -> fo q = fo' q'.
  Proof. intros (c & -> & ->). apply FO. Qed.
  Lemma twin_uo q q' : twin q q' -> uo q = uo' q'.
  Proof. intros (c & -> & ->). apply UO. Qed.

  Lemma twin_contents q q' : twin q q' -> same_contents f (resolve q) f' (resolve q').
  Proof. intros (c & -> & ->) r. rewrite !resolve_under, <- !app_assoc. apply SC. Qed.
  Lemma read_file_twin q q' : twin q q' -> read_file f q = read_file f' q'.
  Proof. intros (c & -> & ->). unfold read_file. rewrite !resolve_under, SC. reflexivity. Qed.
  Lemma read_json_twin {A} q q' (d : decoder A) : twin q q' -> read_json L f q d = read_json L f' q' d.
  Proof. intros U. unfold read_json. rewrite (read_file_twin q q' U). reflexivity. Qed.
  Lemma text_plain' {A} q q' (d : decoder A) m s :
    twin q q' -> read_json L f q d = Ok m -> (forall j, d j = Ok m -> text_in s j) -> plain s.
  Proof. intros (c & -> & _) R T. apply read_json_ok in R as (j & J & D). eapply PL; eauto. Qed.

  Ltac const_plain := split; [reflexivity|vm_compute; intuition discriminate].
  Ltac u := repeat (apply twin_join; [|solve [const_plain | assumption]]); try eassumption; try apply twin_refl.

  Lemma load_named_twin {A} (rd rd' : path -> str -> outcome A) q q' n l :
    twin q q' -> plain n -> components n <> [] -> (forall m s, l = Some m -> In s m -> plain s) ->
    (forall a b c, twin a b -> rd a c = rd' b c) ->
    load_named rd f (pjoin q n) l = load_named rd' f' (pjoin q' n) l.
  Proof.
    intros U Pn Nn P R. unfold load_named. destruct l as [l|]; auto.
    assert (P' : forall s, In s l -> plain s) by (intros; eapply P; eauto). clear P.
    generalize (Ok [] : outcome (list (str * A))).
    induction l as [|s l IH]; intros acc; auto. cbn [fold_left].
    assert (T : twin (with_extension (pjoin (pjoin q n) s) $"txt") (with_extension (pjoin (pjoin q' n) s) $"txt")).
    { apply twin_file; auto. apply P'. left. reflexivity. }
    rewrite IH by (intros; apply P'; right; assumption). f_equal. apply bind_cong; auto. intros m _. cbv zeta.
    apply bind_cong; [apply read_file_twin; exact T|]. intros c _. rewrite (R _ _ c T). reflexivity.
  Qed.

  Lemma load_custom_twin q q' : twin q q' -> load_custom x L f q = load_custom x L f' q'.
  Proof.
    intros U. unfold load_custom. apply bind_cong; [apply read_json_twin; u|]. intros m M.
    apply bind_cong; auto. intros l _.
    assert (plain (cu_directory m)).
    { eapply (text_plain' (pjoin q $"metadata.json")); [u|exact M|]. intros j. apply d_custom_metadata_text. }
    destruct (LR f (pjoin q (cu_directory m)) f' (pjoin q' (cu_directory m))) as (_ & -> & _); auto.
    apply twin_contents. u.
  Qed.

  Lemma load_builtin_twin q q' : twin q q' -> load_builtin x L f q = load_builtin x L f' q'.
  Proof.
    intros U. unfold load_builtin. destruct (LR f q f' q') as (-> & _ & _); auto. apply twin_contents; auto.
  Qed.

  Lemma resources_twin dir dir' b b' c c' :
    twin dir dir' -> dir <> p -> twin b b' -> twin c c' ->
    load_shared_resources x L uo f dir b c = load_shared_resources x L uo' f' dir' b' c'.
  Proof.
    intros U ND Ub Uc. unfold load_shared_resources.
    apply bind_cong; [apply read_json_twin; u|].
    intros m M.
    assert (T : forall s, (forall j, d_resources j = Ok m -> text_in s j) -> plain s).
    { intros s. apply (text_plain' (pjoin dir $"metadata.json") (pjoin dir' $"metadata.json") d_resources m s); [u|exact M]. }
    apply bind_cong.
    { unfold load_stemmer. destruct (rm_stems m) as [n|] eqn:E; auto.
      apply bind_cong; auto. apply read_file_twin. apply twin_file; auto.
      - apply T. intros j D. apply d_resources_text in D as (_ & _ & D & _). auto.
      - const_plain.
      - discriminate. }
    intros st _. apply bind_cong.
    { apply load_named_twin; auto; [const_plain|discriminate|].
      intros l s E Hs. apply T. intros j D. apply d_resources_text in D as (D & _). eauto. }
    intros gs _. apply bind_cong.
    { apply load_named_twin; auto; [const_plain|discriminate| |].
      - intros l s E Hs. apply T. intros j D. apply d_resources_text in D as (_ & D & _). eauto.
      - intros a b0 c0 Tw. rewrite (twin_uo _ _ Tw). reflexivity. }
    intros cs _. apply bind_cong.
    { unfold load_stop_words. destruct (rm_stop_words m) as [n|] eqn:E; auto.
      apply bind_cong; auto. apply read_file_twin.
      assert (plain n) as Pn by (apply T; intros j D; apply d_resources_text in D as (_ & _ & _ & D); auto).
      destruct U as (cc & -> & ->). destruct (plain_names n Pn) as (c2 & En). destruct Pn as [A _].
      apply (twin_extension (cc ++ c2)).
      - destruct cc; [|discriminate]. exfalso. apply ND. apply app_nil_r.
      - unfold pjoin. rewrite A, En, map_app, app_assoc. reflexivity.
      - unfold pjoin. rewrite A, En, map_app, app_assoc. reflexivity. }
    intros sw _. rewrite (load_builtin_twin _ _ Ub), (load_custom_twin _ _ Uc), (twin_uo _ _ U). reflexivity.
  Qed.

  Notation engine_file p := (pjoin p $"nlu_engine.json").

  Lemma resources_of_twin m :
    read_json L f (engine_file p) (d_engine (fo (engine_file p))) = Ok m ->
    resources_of x L uo f p m = resources_of x L uo' f' p' m.
  Proof.
    intros M. unfold resources_of. apply bind_cong; auto. intros l _.
    assert (T : forall s, (forall j, d_engine (fo (engine_file p)) j = Ok m -> text_in s j) -> plain s).
    { intros s. apply (text_plain' (engine_file p) (engine_file p') _ m s); [u|exact M]. }
    pose proof (PLang l).
    apply resources_twin.
    - u.
    - unfold pjoin. destruct (is_absolute (ld_lang_name L l)) eqn:A; [destruct H; congruence|].
      change (is_absolute $"resources") with false. cbv iota. rewrite <- app_assoc.
      intros E. apply (f_equal (@length _)) in E. rewrite !app_length in E. simpl in E. lia.
    - assert (plain (em_builtin m)) by (apply T; intros j D; apply d_engine_text in D; tauto). u.
    - assert (plain (em_custom m)) by (apply T; intros j D; apply d_engine_text in D; tauto). u.
  Qed.

  Lemma featurizer_twin q q' res : twin q q' ->
    load_featurizer x L fo f q res = load_featurizer x L fo' f' q' res.
  Proof.
    intros U. unfold load_featurizer. apply bind_cong; [apply read_json_twin; u|]. intros m M.
    assert (T : forall s, (forall j, d_featurizer j = Ok m -> text_in s j) -> plain s).
    { intros s. apply (text_plain' (pjoin q $"featurizer.json") (pjoin q' $"featurizer.json") _ m s); [u|exact M]. }
    apply bind_cong.
    - assert (plain (fst m)) by (apply T; intros j D; apply d_featurizer_text in D; tauto).
      assert (U' : twin (pjoin (pjoin q (fst m)) $"vectorizer.json") (pjoin (pjoin q' (fst m)) $"vectorizer.json")) by u.
      unfold load_tfidf. cbv zeta. rewrite (twin_fo _ _ U'), (read_json_twin _ _ _ U'). reflexivity.
    - intros t _. apply bind_cong; auto. destruct (snd m) as [n|] eqn:E; auto.
      assert (plain n) by (apply T; intros j D; apply d_featurizer_text in D as [_ D]; auto).
      assert (U' : twin (pjoin (pjoin q n) $"vectorizer.json") (pjoin (pjoin q' n) $"vectorizer.json")) by u.
      unfold load_cooc. cbv zeta. rewrite (twin_fo _ _ U'), (read_json_twin _ _ _ U'). reflexivity.
  Qed.

  Lemma classifier_twin q q' res : twin q q' ->
    build_intent_classifier x ngrams mx L fo uo f q res = build_intent_classifier x ngrams mx L fo' uo' f' q' res.
  Proof.
    intros U. unfold build_intent_classifier. apply bind_cong; [apply read_json_twin; u|].
    intros un _. destruct un; auto. apply bind_cong; auto.
    unfold load_classifier. apply bind_cong; [apply read_json_twin; u|]. intros m M.
    apply bind_cong; auto. destruct (clm_featurizer m) as [n|] eqn:E; auto.
    assert (plain n).
    { eapply (text_plain' (pjoin q $"intent_classifier.json")); [u|exact M|].
      intros j D. eapply d_classifier_text in D; eauto. }
    rewrite (featurizer_twin (pjoin q n) (pjoin q' n)) by u. rewrite (twin_uo _ _ U). reflexivity.
  Qed.

  Lemma filler_twin q q' res : twin q q' ->
    build_slot_filler x shape L fo f q res = build_slot_filler x shape L fo' f' q' res.
  Proof.
    intros U. unfold build_slot_filler. apply bind_cong; [apply read_json_twin; u|].
    intros un _. destruct un; auto. apply bind_cong; auto.
    assert (U' : twin (pjoin q $"slot_filler.json") (pjoin q' $"slot_filler.json")) by u.
    unfold load_crf. cbv zeta. rewrite <- (twin_fo _ _ U'). apply bind_cong; [apply read_json_twin; exact U'|]. intros m M.
    unfold crf_new. apply bind_cong; auto. intros sc _. apply bind_cong; auto.
    destruct (sm_crf_file m) as [n|] eqn:E; auto.
    assert (plain n).
    { eapply (text_plain' (pjoin q $"slot_filler.json")); [exact U'|exact M|].
      intros j D. eapply d_filler_text in D; eauto. }
    destruct (LR f (pjoin q n) f' (pjoin q' n)) as (_ & _ & ->); auto. apply twin_contents. u.
  Qed.

  Lemma parser_twin q q' un res : twin q q' ->
    build_intent_parser x shape ngrams mx L fo uo f q un res =
    build_intent_parser x shape ngrams mx L fo' uo' f' q' un res.
  Proof.
    intros U. assert (U' : twin (pjoin q $"intent_parser.json") (pjoin q' $"intent_parser.json")) by u.
    destruct un; cbn [build_intent_parser]; auto.
    - apply bind_cong.
      + unfold load_deterministic. cbv zeta. rewrite (twin_fo _ _ U'), (read_json_twin _ _ _ U'), (twin_uo _ _ U). reflexivity.
      + intros a _. rewrite (twin_uo _ _ U). reflexivity.
    - apply bind_cong.
      + unfold load_lookup. cbv zeta. rewrite (twin_fo _ _ U'), (read_json_twin _ _ _ U'), (twin_uo _ _ U). reflexivity.
      + intros a _. rewrite (twin_uo _ _ U). reflexivity.
    - apply bind_cong; auto.
      unfold load_probabilistic. apply bind_cong; [apply read_json_twin; exact U'|]. intros m M.
      apply bind_cong; [apply classifier_twin; u|]. intros c _. rewrite (twin_uo _ _ U). apply bind_cong; auto.
      apply mapM_ext. intros md Hmd. apply bind_cong; auto. apply filler_twin.
      assert (plain (snd md)); [|u].
      eapply (text_plain' (pjoin q $"intent_parser.json")); [exact U'|exact M|].
      intros j D. eapply d_probabilistic_text; eauto.
  Qed.

  Lemma from_path_moved :
    from_path x shape ngrams mx L fo uo f p = from_path x shape ngrams mx L fo' uo' f' p'.
  Proof.
    assert (U' : twin (engine_file p) (engine_file p')) by u.
    unfold M_Load.from_path. apply bind_cong.
    { unfold load_model, check_model_version. cbv zeta. rewrite !(read_json_twin _ _ _ U'), (twin_fo _ _ U'). reflexivity. }
    intros m M.
    assert (M' : read_json L f (engine_file p) (d_engine (fo (engine_file p))) = Ok m).
    { unfold load_model in M. cbv zeta in M. bind_inv M. exact M. }
    apply bind_cong; [apply resources_of_twin; exact M'|]. intros res _.
    apply bind_cong; auto. unfold load_intent_parsers. apply mapM_ext. intros n Hn. cbv zeta.
    assert (plain n).
    { eapply (text_plain' (engine_file p)); [exact U'|exact M'|]. intros j D.
      eapply d_engine_text; eauto. }
    rewrite (read_json_twin (pjoin (pjoin p n) $"metadata.json") (pjoin (pjoin p' n) $"metadata.json")) by u.
    apply bind_cong; auto. intros un _. apply parser_twin. u.
  Qed.
End Move.
