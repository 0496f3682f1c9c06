(** Proofs for C81. *)
From Coq Require Import String List NArith ZArith Bool Arith Lia.
From Verif Require Import Base F32 M_Types M_Engine M_Det M_Lookup M_Feat M_Prob M_Features M_Filler M_Crf
  M_Cache M_Res M_Fs M_Json M_Load M_Inject S_Base S_Res S_Load S_Inject S_Reload
  P_Base P_Load P_Names P_Inject P_Effects P_Injection S_Answer S_Made P_Made.
Import ListNotations.
Local Open Scope nat_scope.

(** ** Trees that agree where the units are *)
Section Trees.
  Context (x : Ext) (shape : str -> str) (ngrams : list str -> nat -> list str) (mx : Math) (L : Loader)
          (fo : path -> orders) (uo : path -> nat -> HashOrder).
  Notation engine_file p := (pjoin p $"nlu_engine.json").

  Lemma read_json_same {A} f f' q (d : decoder A) : f' (resolve q) = f (resolve q) -> read_json L f' q d = read_json L f q d.
  Proof. intros E. unfold read_json, read_file. rewrite E. reflexivity. Qed.

  Lemma read_json_entities {A} f f' q (d : decoder A) : read_json (entities_from L f') f q d = read_json L f q d.
  Proof. reflexivity. Qed.

  Ltac const_plain := split; [reflexivity|vm_compute; intuition discriminate].

  Lemma simple_plain s : simple_name s -> plain s.
  Proof.
    intros S. destruct (simple_components s S) as [C A]. split; auto. rewrite C. intros [E|[]]. discriminate.
  Qed.

  (** The resources, with the entity parsers of the second tree. *)
  Lemma resources_frame f f' p l b c :
    same_below (resolve (pjoin p $"resources")) f f' ->
    (forall names j s, json_at L f (pjoin p $"resources" ++ map CName names) j -> text_in s j -> plain s) ->
    simple_name (ld_lang_name L l) ->
    f' (resolve (pjoin c $"metadata.json")) = f (resolve (pjoin c $"metadata.json")) ->
    load_shared_resources x L uo f' (pjoin (pjoin p $"resources") (ld_lang_name L l)) b c =
    load_shared_resources x (entities_from L f') uo f (pjoin (pjoin p $"resources") (ld_lang_name L l)) b c.
  Proof.
    intros SB PL SN MC. symmetry. unfold load_shared_resources.
    set (R := pjoin p $"resources") in *. set (dir := pjoin R (ld_lang_name L l)).
    assert (U : under R dir) by (apply under_join; [apply under_refl|apply simple_plain; exact SN]).
    assert (ND : dir <> R).
    { unfold dir, pjoin. destruct (simple_components _ SN) as [C A]. rewrite A, C. intros E.
      apply (f_equal (@length _)) in E. rewrite app_length in E. simpl in E. lia. }
    apply bind_cong.
    { rewrite read_json_entities. eapply (read_json_local L f f' R SB).
      apply under_join; [exact U|const_plain]. }
    intros m M.
    assert (T : forall s, (forall j, d_resources j = Ok m -> text_in s j) -> plain s).
    { intros s. eapply (text_plain L f R PL (pjoin dir $"metadata.json") d_resources m s);
        [apply under_join; [exact U|const_plain]|exact M]. }
    apply bind_cong.
    { unfold load_stemmer. destruct (rm_stems m) as [n|] eqn:E; auto.
      apply bind_cong; auto. apply (read_file_local f f' R SB). apply under_file; auto.
      - apply T. intros j D. apply d_resources_text in D as (_ & _ & D & _). auto.
      - const_plain.
      - discriminate. }
    intros st _. apply bind_cong.
    { apply (load_named_local f f' R SB); auto; [const_plain|discriminate|].
      intros l' s E Hs. apply T. intros j D. apply d_resources_text in D as (D & _). eauto. }
    intros gs _. apply bind_cong.
    { apply (load_named_local f f' R SB); auto; [const_plain|discriminate|].
      intros l' s E Hs. apply T. intros j D. apply d_resources_text in D as (_ & D & _). eauto. }
    intros cs _. apply bind_cong.
    { unfold load_stop_words. destruct (rm_stop_words m) as [n|] eqn:E; auto.
      apply bind_cong; auto. apply (read_file_local f f' R SB).
      assert (plain n) as Pn by (apply T; intros j D; apply d_resources_text in D as (_ & _ & _ & D); auto).
      destruct U as (cc & Ecc). rewrite Ecc in *. destruct (plain_names n Pn) as (c' & En). destruct Pn as [A _].
      unfold pjoin at 1. rewrite A, En, <- app_assoc, <- map_app, with_extension_app.
      - destruct (with_extension_names (cc ++ c') $"txt") as (c3 & ->). exists c3. reflexivity.
      - destruct cc; [|discriminate]. exfalso. apply ND. apply app_nil_r. }
    intros sw _. apply bind_cong; [reflexivity|]. intros bp _. apply bind_cong; [|reflexivity].
    unfold load_custom. apply bind_cong; [|reflexivity].
    symmetry. apply read_json_same. exact MC.
  Qed.

  Lemma reload_frame f f' p m :
    taggers_local L ->
    read_json L f (engine_file p) (d_engine (fo (engine_file p))) = Ok m ->
    f' (resolve (engine_file p)) = f (resolve (engine_file p)) ->
    f' (resolve (pjoin (pjoin p (em_custom m)) $"metadata.json")) = f (resolve (pjoin (pjoin p (em_custom m)) $"metadata.json")) ->
    (forall q, In q (pjoin p $"resources" :: map (pjoin p) (em_parsers m)) -> same_below (resolve q) f f' /\
       forall names j s, json_at L f (q ++ map CName names) j -> text_in s j -> plain s) ->
    (forall l, simple_name (ld_lang_name L l)) ->
    from_path x shape ngrams mx L fo uo f' p = from_path x shape ngrams mx (entities_from L f') fo uo f p.
  Proof.
    intros LL M EF CF UD SN. unfold from_path. apply bind_cong.
    { unfold load_model, check_model_version. cbv zeta. rewrite !(read_json_same f f') by exact EF. reflexivity. }
    intros m' M'.
    assert (m' = m) as ->.
    { unfold load_model in M'. cbv zeta in M'. bind_inv M'. rewrite (read_json_same f f') in M' by exact EF. congruence. }
    apply bind_cong.
    { unfold resources_of. apply bind_cong; auto. intros l _.
      destruct (UD (pjoin p $"resources") (or_introl eq_refl)) as [SB PL]. apply resources_frame; auto. }
    intros res _. apply bind_cong; [|reflexivity]. unfold load_intent_parsers. apply mapM_ext. intros n Hn. cbv zeta.
    destruct (UD (pjoin p n)) as [SB PL]; [right; apply in_map; exact Hn|].
    rewrite read_json_entities.
    rewrite <- (read_json_local L f f' (pjoin p n) SB) by (apply under_join; [apply under_refl|const_plain]).
    apply bind_cong; auto. intros un _. symmetry.
    assert (LL' : loaders_local (entities_from L f)).
    { intros g g' q S. split; [reflexivity|]. split; [reflexivity|]. exact (LL g g' q S). }
    exact (parser_local x shape ngrams mx (entities_from L f) fo uo f f' (pjoin p n) SB LL' PL (pjoin p n) un res (under_refl _)).
  Qed.
End Trees.

(** ** Whether a unit loads does not depend on the entity parsers *)
Definition alike {A} (m m' : outcome A) : Prop := forall a, m = Ok a -> exists a', m' = Ok a'.
Lemma alike_refl {A} (m : outcome A) : alike m m.
Proof. intros a H. eauto. Qed.
Lemma alike_ok {A} (a : A) m : alike m (Ok a).
Proof. intros ? _. eauto. Qed.
Lemma alike_same {A B} (m : outcome A) (k k' : A -> outcome B) :
  (forall a, alike (k a) (k' a)) -> alike (bind m k) (bind m k').
Proof. intros H b E. bind_inv E. rewrite E0. cbn [bind]. eapply H; eauto. Qed.
Lemma alike_bind {A B} (m m' : outcome A) (k k' : A -> outcome B) :
  alike m m' -> (forall a a', alike (k a) (k' a')) -> alike (bind m k) (bind m' k').
Proof. intros HM H b E. bind_inv E. destruct (HM a E0) as (a' & ->). cbn [bind]. eapply H; eauto. Qed.
Lemma alike_mapM {A B} (g g' : A -> outcome B) l : (forall a, alike (g a) (g' a)) -> alike (mapM g l) (mapM g' l).
Proof.
  intros H. induction l as [|a l IH]; [apply alike_refl|]. cbn [mapM]. apply alike_bind; auto. intros. apply alike_bind; auto.
  intros. apply alike_ok.
Qed.
Ltac alike := repeat first
  [ match goal with |- alike ?m ?m => apply alike_refl end
  | match goal with |- alike _ (Ok _) => apply alike_ok end
  | match goal with H : _ |- alike _ _ => simple apply H end
  | match goal with |- alike (bind ?m _) (bind ?m _) => apply alike_same; intro end
  | match goal with |- alike (mapM _ _) (mapM _ _) => apply alike_mapM; intro end
  | match goal with |- alike (if ?b then _ else _) (if ?b then _ else _) => destruct b end
  | match goal with |- alike (match ?o with _ => _ end) (match ?o with _ => _ end) => destruct o end
  | match goal with |- alike (bind _ _) (bind _ _) => apply alike_bind; [|intros ? ?] end ].

Section Alike.
  Context (x : Ext) (shape : str -> str) (ngrams : list str -> nat -> list str) (mx : Math) (L : Loader)
          (fo : path -> orders) (uo : path -> nat -> HashOrder) (f : fs) (r r' : Resources).
  Hypothesis S : same_but_entities r r'.

  Lemma det_alike l c o1 o2 o3 m : alike (det_new x l c o1 o2 o3 m r) (det_new x l c o1 o2 o3 m r').
  Proof. unfold det_new. cbv zeta. alike. Qed.
  Lemma lookup_alike l o m : alike (lookup_new l o m r) (lookup_new l o m r').
  Proof. unfold lookup_new. cbv zeta. alike. Qed.
  Lemma tfidf_alike l m : alike (tfidf_new x l m r) (tfidf_new x l m r').
  Proof. destruct S as (_ & E2 & E3 & _). unfold tfidf_new. rewrite E2, E3. alike. Qed.
  Lemma cooc_alike l m : alike (cooc_new x l m r) (cooc_new x l m r').
  Proof. unfold cooc_new. cbv zeta. alike. Qed.
  Lemma features_alike ff : alike (get_features x shape ff r) (get_features x shape ff r').
  Proof.
    destruct S as (E1 & E2 & E3 & _). unfold get_features, build_ngram, build_entity_match, build_builtin_match, build_word_cluster.
    cbv zeta. rewrite E1, E2, E3. alike.
  Qed.
  Lemma crf_alike l t m : alike (crf_new x shape l t m r) (crf_new x shape l t m r').
  Proof. pose proof features_alike. unfold crf_new, processor_new. alike. Qed.
  Lemma filler_alike q : alike (build_slot_filler x shape L fo f q r) (build_slot_filler x shape L fo f q r').
  Proof. pose proof crf_alike. unfold build_slot_filler, load_crf. cbv zeta. alike. Qed.
  Lemma featurizer_alike q : alike (load_featurizer x L fo f q r) (load_featurizer x L fo f q r').
  Proof. pose proof tfidf_alike. pose proof cooc_alike. unfold load_featurizer, load_tfidf, load_cooc. cbv zeta. alike. Qed.
  Lemma classifier_alike q : alike (build_intent_classifier x ngrams mx L fo uo f q r) (build_intent_classifier x ngrams mx L fo uo f q r').
  Proof. pose proof featurizer_alike. unfold build_intent_classifier, load_classifier. alike. Qed.
  Lemma parser_alike q u : alike (build_intent_parser x shape ngrams mx L fo uo f q u r) (build_intent_parser x shape ngrams mx L fo uo f q u r').
  Proof.
    pose proof det_alike. pose proof lookup_alike. pose proof classifier_alike. pose proof filler_alike.
    destruct u; cbn [build_intent_parser]; unfold load_deterministic, load_lookup, load_probabilistic; cbv zeta; alike.
  Qed.
  Lemma parsers_alike p m : alike (load_intent_parsers x shape ngrams mx L fo uo f p m r) (load_intent_parsers x shape ngrams mx L fo uo f p m r').
  Proof. pose proof parser_alike. unfold load_intent_parsers. cbv zeta. alike. Qed.
End Alike.

(** ** After an injection *)
Definition keyed (p : path) (m : Meta) : list (str * path) :=
  map (fun ep => (fst ep, pjoin (custom_gazetteers p m) (snd ep))) (me_custom_parsers m) ++
  match me_builtin m with
  | Some (name, parsers) => map (fun ep => (fst ep, pjoin (pjoin (builtin_dir p m) name) (snd ep))) parsers
  | None => []
  end.
Lemma keyed_listed p m : map snd (keyed p m) = listed p m.
Proof.
  unfold keyed, listed. rewrite map_app, map_map. f_equal. destruct (me_builtin m) as [[n ps]|]; [|reflexivity].
  rewrite map_map. reflexivity.
Qed.
Lemma apart_sym d d' : apart d d' -> apart d' d.
Proof. intros [A B]. split; assumption. Qed.
Lemma apart_irrefl d : ~ apart d d.
Proof. intros [A _]. apply A. exists []. symmetry. apply app_nil_r. Qed.
Lemma keyed_apart (l : list (str * path)) a b : ForallOrdPairs apart (map resolve (map snd l)) -> In a l -> In b l ->
  a = b \/ apart (resolve (snd a)) (resolve (snd b)).
Proof.
  induction l as [|c l IH]; [intros _ []|]. cbn [map]. intros F. inversion F as [|? ? F1 F2]; subst.
  assert (H : forall z, In z l -> apart (resolve (snd c)) (resolve (snd z))).
  { intros z Iz. rewrite Forall_forall in F1. apply F1. apply in_map. apply in_map. exact Iz. }
  intros [->|Ia] [->|Ib]; auto. right. apply apart_sym. auto.
Qed.

Section After.
  Context (x : Ext) (shape : str -> str) (ngrams : list str -> nat -> list str) (mx : Math) (L : Loader)
          (fo : path -> orders) (uo : path -> nat -> HashOrder) (G : Gaz).
  Notation metadata := (metadata L fo).
  Notation inject := (inject x L fo uo G).

  Lemma stored_keyed p m e d : stored G p m e d -> In (e, d) (keyed p m).
  Proof.
    unfold keyed. intros [(_ & n & (pre & post & E & _) & ->)|(_ & _ & dir & ps & n & B & (pre & post & E & _) & ->)]; apply in_or_app.
    - left. rewrite E, map_app. apply in_or_app. right. left. reflexivity.
    - right. rewrite B, E, map_app. apply in_or_app. right. left. reflexivity.
  Qed.
  Lemma stored_in p m e d : stored G p m e d -> In d (listed p m).
  Proof. intros S. rewrite <- keyed_listed. apply stored_keyed in S. apply (in_map snd) in S. exact S. Qed.

  Lemma tidy_separate p m adds : tidy p m -> separate G p m adds.
  Proof.
    intros (F & _) e e' d d' _ _ N S S'. rewrite <- keyed_listed in F. apply stored_keyed in S, S'.
    destruct (keyed_apart _ _ _ F S S') as [E|A]; [congruence|exact A].
  Qed.
  Lemma tidy_outside p m adds : tidy p m ->
    forall e d q, requested adds e -> stored G p m e d -> In q (meta_files p m) -> ~ at_or_below (resolve d) (resolve q).
  Proof. intros (_ & O & _) e d q _ S I. apply O; auto. eapply stored_in; eauto. Qed.

  Lemma reload o1 o2 o3 p adds b r f m t1 t2 :
    gaz_ok G -> metadata f p m -> tidy p m -> taggers_local L -> names_stay L f p m ->
    fst (inject o1 o2 o3 (request p adds b r) f) = t1 ++ t2 ->
    from_path x shape ngrams mx L fo uo (apply_ops f t1) p =
    from_path x shape ngrams mx (entities_from L (apply_ops f t1)) fo uo f p.
  Proof.
    intros GO HM T LL [PL SN] H. pose proof HM as (D1 & _). apply read_json_ok in D1.
    assert (K : forall q, In q (meta_files p m) -> apply_ops f t1 (resolve q) = f (resolve q)).
    { intros q I. eapply rest_unchanged; eauto. intros e d _ S. destruct T as (_ & O & _). apply O; auto. eapply stored_in; eauto. }
    apply (reload_frame x shape ngrams mx L fo uo f (apply_ops f t1) p (me_model m)); auto.
    - apply K. left. reflexivity.
    - apply (K (pjoin (custom_dir p m) $"metadata.json")). right. right. left. reflexivity.
    - intros q I. split.
      + eapply (others_unchanged x L fo uo G); eauto. intros e d _ S. destruct T as (_ & _ & A). apply A; auto. eapply stored_in; eauto.
      + intros names j s. apply (PL q). exact I.
  Qed.

  (** One listed parser. *)
  Lemma entry_after o1 o2 o3 p adds b r f m t res e0 d0 :
    gaz_ok G -> metadata f p m -> tidy p m -> inject o1 o2 o3 (request p adds b r) f = (t, Ok tt) ->
    (forall e, requested adds e -> exists d, stored G p m e d /\ updated G x m (rs_stemmer res) b adds f (apply_ops f t) e d) ->
    In (e0, d0) (keyed p m) ->
    (exists e vs g g', requested adds e /\ stored G p m e d0 /\ handed x m (rs_stemmer res) e (values_of adds e) vs /\
       gz_load G f d0 = Ok g /\ gz_inject G g vs true b = Ok g' /\ gz_load G (apply_ops f t) d0 = Ok g') \/
    ((forall e, requested adds e -> ~ stored G p m e d0) /\ gz_load G (apply_ops f t) d0 = gz_load G f d0).
  Proof.
    intros GO HM T H U I. pose proof T as (F & _). rewrite <- keyed_listed in F.
    assert (Same : (forall e, requested adds e -> ~ stored G p m e d0) -> gz_load G (apply_ops f t) d0 = gz_load G f d0).
    { intros N. eapply (others_unchanged x L fo uo G _ _ _ _ _ _ _ _ _ t []); eauto.
      - rewrite H, app_nil_r. reflexivity.
      - intros e d R S. destruct (keyed_apart _ _ _ F (stored_keyed _ _ _ _ S) I) as [E|A]; [|exact A].
        inv E. exfalso. exact (N _ R S). }
    assert (Only : forall e, requested adds e -> stored G p m e d0 -> e = e0).
    { intros e _ S. destruct (keyed_apart _ _ _ F (stored_keyed _ _ _ _ S) I) as [E|A]; [congruence|].
      exfalso. exact (apart_irrefl _ A). }
    destruct (values_of adds e0) as [|v vs0] eqn:V.
    { right. assert (N : forall e, requested adds e -> ~ stored G p m e d0).
      { intros e R S. rewrite (Only e R S) in R. apply (values_of_nil adds e0) in V. contradiction. }
      split; auto. }
    assert (R : requested adds e0).
    { destruct (in_dec (list_eq_dec N.eq_dec) e0 (map fst adds)) as [J|J].
      - apply in_map_iff in J as ([e1 v1] & E & J). simpl in E. subst. exists v1. exact J.
      - assert (Z : values_of adds e0 = []).
        { apply values_of_nil. intros (v1 & J1). apply J. apply (in_map fst) in J1. exact J1. }
        congruence. }
    destruct (U e0 R) as (d & S & g & vs & g' & A1 & A2 & A3 & A4).
    destruct (keyed_apart _ _ _ F (stored_keyed _ _ _ _ S) I) as [E|A].
    - inv E. left. exists e0, vs, g, g'. auto 10.
    - right. assert (N : forall e, requested adds e -> ~ stored G p m e d0).
      { intros e R' S'. assert (e = e0) by (apply Only; auto). subst. rewrite (stored_unique G p m e0 _ _ S' S) in A. exact (apart_irrefl _ A). }
      split; auto.
  Qed.

  Lemma loads_forward o1 o2 o3 p adds b r f m t res dir : forall parsers gs,
    gaz_ok G -> metadata f p m -> tidy p m -> inject o1 o2 o3 (request p adds b r) f = (t, Ok tt) ->
    (forall e, requested adds e -> exists d, stored G p m e d /\ updated G x m (rs_stemmer res) b adds f (apply_ops f t) e d) ->
    (forall ep, In ep parsers -> In (fst ep, pjoin dir (snd ep)) (keyed p m)) ->
    loads G f dir parsers gs ->
    exists gs', loads G (apply_ops f t) dir parsers gs' /\ parsers_after G x p m (rs_stemmer res) b adds dir parsers gs gs'.
  Proof.
    intros parsers gs GO HM T H U K Lo. induction Lo as [|ep g parsers gs [E1 E2] Lo IH].
    - exists []. split; constructor; [constructor|reflexivity].
    - destruct IH as (gs' & L' & A & Len); [intros; apply K; right; assumption|].
      destruct (entry_after _ _ _ _ _ _ _ _ _ _ res _ _ GO HM T H U (K ep (or_introl eq_refl)))
        as [(e & vs & g0 & g' & R & S & Hd & A1 & A2 & A3)|(N & A1)].
      + assert (g0 = snd g) as -> by congruence.
        exists ((fst ep, g') :: gs'). split; [constructor; [split; auto|exact L']|]. split; [|cbn; congruence].
        cbn [combine]. constructor; [|exact A]. cbn [fst snd]. split; [auto|]. split; auto. left. exists e, vs. auto.
      + exists (g :: gs'). split; [constructor; [split; [auto|congruence]|exact L']|]. split; [|cbn; congruence].
        cbn [combine]. constructor; [|exact A]. cbn [fst snd]. split; [auto|]. split; auto. right. auto.
  Qed.
  Lemma loads_backward o1 o2 o3 p adds b r f m t res dir : forall parsers gs',
    gaz_ok G -> metadata f p m -> tidy p m -> inject o1 o2 o3 (request p adds b r) f = (t, Ok tt) ->
    (forall e, requested adds e -> exists d, stored G p m e d /\ updated G x m (rs_stemmer res) b adds f (apply_ops f t) e d) ->
    (forall ep, In ep parsers -> In (fst ep, pjoin dir (snd ep)) (keyed p m)) ->
    loads G (apply_ops f t) dir parsers gs' ->
    exists gs, loads G f dir parsers gs /\ parsers_after G x p m (rs_stemmer res) b adds dir parsers gs gs'.
  Proof.
    intros parsers gs' GO HM T H U K Lo. induction Lo as [|ep g parsers gs' [E1 E2] Lo IH].
    - exists []. split; constructor; [constructor|reflexivity].
    - destruct IH as (gs & L' & A & Len); [intros; apply K; right; assumption|].
      destruct (entry_after _ _ _ _ _ _ _ _ _ _ res _ _ GO HM T H U (K ep (or_introl eq_refl)))
        as [(e & vs & g0 & g' & R & S & Hd & A1 & A2 & A3)|(N & A1)].
      + assert (g' = snd g) as -> by congruence.
        exists ((fst ep, g0) :: gs). split; [constructor; [split; auto|exact L']|]. split; [|cbn; congruence].
        cbn [combine]. constructor; [|exact A]. cbn [fst snd]. split; [auto|]. split; auto. left. exists e, vs. auto.
      + exists (g :: gs). split; [constructor; [split; [auto|congruence]|exact L']|]. split; [|cbn; congruence].
        cbn [combine]. constructor; [|exact A]. cbn [fst snd]. split; [auto|]. split; auto. right. auto.
  Qed.
  Lemma custom_keyed p m ep : In ep (me_custom_parsers m) -> In (fst ep, pjoin (custom_gazetteers p m) (snd ep)) (keyed p m).
  Proof. intros I. apply in_or_app. left. apply (in_map (fun ep => (fst ep, pjoin (custom_gazetteers p m) (snd ep)))) in I. exact I. Qed.
  Lemma builtin_keyed p m name parsers ep : me_builtin m = Some (name, parsers) -> In ep parsers ->
    In (fst ep, pjoin (pjoin (builtin_dir p m) name) (snd ep)) (keyed p m).
  Proof.
    intros B I. apply in_or_app. right. rewrite B.
    apply (in_map (fun ep => (fst ep, pjoin (pjoin (builtin_dir p m) name) (snd ep)))) in I. exact I.
  Qed.

  Lemma json_same f f' q j : f' (resolve q) = f (resolve q) -> json_at L f q j -> json_at L f' q j.
  Proof. intros E (c & F & J). exists c. rewrite E. auto. Qed.

  Lemma json_det f q j j' : json_at L f q j -> json_at L f q j' -> j = j'.
  Proof. intros (c & F & J) (c' & F' & J'). congruence. Qed.

  Lemma parts f p m en : metadata f p m -> from_path x shape ngrams mx L fo uo f p = Ok en ->
    exists b gaz l, ld_builtin L f (builtin_dir p m) = Ok b /\ ld_lang L (cu_language (me_custom m)) = Some l /\
      ld_gazetteer L f (custom_gazetteers p m) = Ok gaz /\
      (forall s kinds cached n, rs_builtin (en_resources en) s kinds cached n = b (x_lower x s) kinds n) /\
      rs_custom (en_resources en) = custom_entities x l gaz.
  Proof.
    intros (D1 & K & D2 & D3 & D4 & D5) H.
    destruct (entity_parsers _ _ _ _ _ _ _ _ _ _ H) as (m' & b & cm & l & gaz & E1 & E2 & E3 & E4 & E5 & E6 & E7).
    assert (m' = me_model m) as ->.
    { destruct E1 as (j & J & E1), D1 as (j' & J' & D1). rewrite (json_det _ _ _ _ J J') in E1. congruence. }
    assert (cm = me_custom m) as ->.
    { destruct E4 as (j & J & E4), D4 as (j' & J' & D4). rewrite (json_det _ _ _ _ J J') in E4. congruence. }
    exists b, gaz, l. auto 10.
  Qed.

  (** Entity parsers that are made of other gazetteer parsers are still made. *)
  Lemma entities_again make mkb o1 o2 o3 p adds b r f m t bp gaz :
    gaz_ok G -> assembled L G make mkb -> metadata f p m -> tidy p m ->
    inject o1 o2 o3 (request p adds b r) f = (t, Ok tt) ->
    ld_builtin L f (builtin_dir p m) = Ok bp -> ld_gazetteer L f (custom_gazetteers p m) = Ok gaz ->
    exists bp' gaz', ld_builtin L (apply_ops f t) (builtin_dir p m) = Ok bp' /\
      ld_gazetteer L (apply_ops f t) (custom_gazetteers p m) = Ok gaz'.
  Proof.
    intros GO [AG AB] HM T H Eb Eg.
    destruct (injected x L fo uo G _ _ _ _ _ _ _ _ _ _ GO HM (tidy_separate p m adds T) H) as (res & Ur & U).
    assert (HM' : metadata (apply_ops f t) p m).
    { eapply (kept_metadata x L fo uo G _ _ _ _ _ _ _ _ _ t []); eauto; [apply tidy_outside; auto|]. rewrite H, app_nil_r. reflexivity. }
    pose proof HM as (D1 & K & D2 & D3 & D4 & D5). pose proof HM' as (D1' & K' & D2' & D3' & D4' & D5').
    apply (AG _ _ _ _ D5) in Eg as (gs & Lg & _).
    destruct (loads_forward _ _ _ _ _ _ _ _ _ _ res _ _ _ GO HM T H U (custom_keyed p m) Lg) as (gs' & Lg' & _).
    assert (Eb' : exists bp', ld_builtin L (apply_ops f t) (builtin_dir p m) = Ok bp').
    { destruct D2 as (j & J & D2), D2' as (j' & J' & D2').
      assert (j' = j) as ->.
      { eapply (json_det (apply_ops f t)); [exact J'|]. eapply json_same; [|exact J].
        eapply (rest_unchanged x L fo uo G _ _ _ _ _ _ _ _ _ t []); eauto; [rewrite H, app_nil_r; reflexivity|].
        intros e d R S. eapply tidy_outside; eauto. right. left. reflexivity. }
      destruct (me_builtin m) as [[name parsers]|] eqn:B; cbn [option_map] in D2, D2'.
      - specialize (D3 _ _ eq_refl). specialize (D3' _ _ eq_refl).
        apply (proj2 (AB _ _ _ _ J) _ _ D2 D3) in Eb as (mk & bs & Em & Lb & _).
        destruct (loads_forward _ _ _ _ _ _ _ _ _ _ res _ _ _ GO HM T H U (fun ep => builtin_keyed p m name parsers ep B) Lb) as (bs' & Lb' & _).
        exists (mk bs'). apply (proj2 (AB _ _ _ _ J') _ _ D2' D3'). exists mk, bs'. auto.
      - apply (proj1 (AB _ _ _ _ J) D2) in Eb as (mk & Em & _).
        exists (mk []). apply (proj1 (AB _ _ _ _ J') D2'). exists mk. auto. }
    destruct Eb' as (bp' & Eb'). exists bp', (make gs'). split; [exact Eb'|]. apply (AG _ _ _ _ D5'). exists gs'. auto.
  Qed.

  Lemma still_loads make mkb o1 o2 o3 p adds b r f m t en :
    gaz_ok G -> assembled L G make mkb -> taggers_local L -> metadata f p m -> tidy p m -> names_stay L f p m ->
    inject o1 o2 o3 (request p adds b r) f = (t, Ok tt) ->
    from_path x shape ngrams mx L fo uo f p = Ok en ->
    exists en', from_path x shape ngrams mx L fo uo (apply_ops f t) p = Ok en' /\
      en_dataset en' = en_dataset en /\ same_but_entities (en_resources en) (en_resources en').
  Proof.
    intros GO AS LL HM T NS H E.
    destruct (parts _ _ _ _ HM E) as (bp & gaz & l & Eb & El & Eg & _).
    destruct (entities_again _ _ _ _ _ _ _ _ _ _ _ _ _ _ GO AS HM T H Eb Eg) as (bp' & gaz' & Eb' & Eg').
    rewrite (reload _ _ _ _ _ _ _ _ _ t [] GO HM T LL NS) by (rewrite H, app_nil_r; reflexivity).
    set (f' := apply_ops f t) in *. clearbody f'.
    pose proof HM as (D1 & _ & _ & _ & D4 & _). apply read_json_ok in D1. apply read_json_ok in D4.
    unfold from_path in E. bind_inv E. pose proof E0 as M0. unfold load_model in M0. cbv zeta in M0. bind_inv M0.
    rewrite D1 in M0. injection M0 as <-. bind_inv E. bind_inv E. inv E.
    unfold from_path. change (load_model (entities_from L f')) with (load_model L). rewrite E0. cbn [bind].
    assert (R : exists res', resources_of x (entities_from L f') uo f p (me_model m) = Ok res' /\
      same_but_entities a res').
    { clear - E2 Eb' Eg' El D4. revert E2. unfold resources_of. change (ld_lang (entities_from L f')) with (ld_lang L).
      change (ld_lang_name (entities_from L f')) with (ld_lang_name L). intros E2.
      destruct (ok_or EOther (ld_lang L (ds_language (em_dataset (me_model m))))) as [la| |]; [|discriminate..].
      cbn [bind] in *. unfold load_shared_resources in *. bind_inv E2. rewrite read_json_entities, E. cbn [bind].
      bind_inv E2. rewrite E0. cbn [bind]. bind_inv E2. rewrite E1. cbn [bind].
      bind_inv E2. rewrite E3. cbn [bind]. bind_inv E2. rewrite E4. cbn [bind]. bind_inv E2. bind_inv E2. inv E2.
      unfold load_builtin, load_custom. rewrite read_json_entities. cbn [ld_builtin ld_gazetteer ld_lang entities_from].
      unfold builtin_dir in Eb'. rewrite Eb'. unfold custom_dir in D4. rewrite D4. cbn [bind].
      change (pjoin (pjoin p (em_custom (me_model m))) (cu_directory (me_custom m))) with (custom_gazetteers p m).
      rewrite El. cbn [bind ok_or]. rewrite Eg'. cbn [bind].
      eexists. split; [reflexivity|]. repeat split. }
    destruct R as (res' & -> & S). cbn [bind].
    destruct (parsers_alike x shape ngrams mx L fo uo f _ res' S p (me_model m) _ E3) as (ps' & P).
    change (load_intent_parsers x shape ngrams mx (entities_from L f')) with (load_intent_parsers x shape ngrams mx L).
    rewrite P. cbn [bind]. eexists. split; [reflexivity|]. split; [reflexivity|exact S].
  Qed.

  (** What the entity parsers of the new engine are made of. *)
  Lemma new_values make mkb o1 o2 o3 p adds b r f m t en j :
    gaz_ok G -> assembled L G make mkb -> metadata f p m -> tidy p m ->
    json_at L f (pjoin (builtin_dir p m) $"metadata.json") j ->
    inject o1 o2 o3 (request p adds b r) f = (t, Ok tt) ->
    from_path x shape ngrams mx L fo uo (apply_ops f t) p = Ok en ->
    exists res l mk gs gs' bs bs', resources_used x L fo uo f p r res /\
      ld_lang L (cu_language (me_custom m)) = Some l /\ mkb j = Some mk /\
      custom_loaded G f p m gs /\ builtin_loaded G f p m bs /\
      custom_after G x p m (rs_stemmer res) b adds gs gs' /\ builtin_after G x p m (rs_stemmer res) b adds bs bs' /\
      rs_custom (en_resources en) = custom_entities x l (make gs') /\
      (forall s kinds cached n, rs_builtin (en_resources en) s kinds cached n = mk bs' (x_lower x s) kinds n).
  Proof.
    intros GO [AG AB] HM T J H E.
    destruct (injected x L fo uo G _ _ _ _ _ _ _ _ _ _ GO HM (tidy_separate p m adds T) H) as (res & Ur & U).
    assert (HM' : metadata (apply_ops f t) p m).
    { eapply (kept_metadata x L fo uo G _ _ _ _ _ _ _ _ _ t []); eauto; [apply tidy_outside; auto|]. rewrite H, app_nil_r. reflexivity. }
    pose proof HM as (D1 & K & D2 & D3 & D4 & D5). pose proof HM' as (D1' & K' & D2' & D3' & D4' & D5').
    assert (J' : json_at L (apply_ops f t) (pjoin (builtin_dir p m) $"metadata.json") j).
    { eapply json_same; [|exact J].
      eapply (rest_unchanged x L fo uo G _ _ _ _ _ _ _ _ _ t []); eauto; [rewrite H, app_nil_r; reflexivity|].
      intros e d R S. eapply tidy_outside; eauto. right. left. reflexivity. }
    destruct (parts _ _ _ _ HM' E) as (bp & gaz & l & Eb & El & Eg & Rb & Rc).
    apply (AG _ _ _ _ D5') in Eg as (gs' & Lg & ->).
    destruct (loads_backward _ _ _ _ _ _ _ _ _ _ res _ _ _ GO HM T H U (custom_keyed p m) Lg) as (gs & Lg0 & A).
    assert (B : exists mk bs bs', mkb j = Some mk /\ builtin_loaded G f p m bs /\
              builtin_after G x p m (rs_stemmer res) b adds bs bs' /\ bp = mk bs').
    { destruct D2' as (j' & J2 & D2'). rewrite (json_det _ _ _ _ J2 J') in D2'. unfold builtin_loaded, builtin_after.
      destruct (me_builtin m) as [[name parsers]|] eqn:B; cbn [option_map] in D2'.
      - specialize (D3' _ _ eq_refl).
        apply (proj2 (AB _ _ _ _ J') _ _ D2' D3') in Eb as (mk & bs' & Em & Lb & ->).
        destruct (loads_backward _ _ _ _ _ _ _ _ _ _ res _ _ _ GO HM T H U (fun ep => builtin_keyed p m name parsers ep B) Lb)
          as (bs & Lb0 & A').
        exists mk, bs, bs'. auto.
      - apply (proj1 (AB _ _ _ _ J') D2') in Eb as (mk & Em & ->).
        exists mk, [], []. auto. }
    destruct B as (mk & bs & bs' & Em & Lb & Ab & ->).
    exists res, l, mk, gs, gs', bs, bs'. auto 12.
  Qed.
End After.
