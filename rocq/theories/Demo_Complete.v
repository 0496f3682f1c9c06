(** Examples for C95. *)
From Coq Require Import String List NArith ZArith Bool Arith Lia.
From Verif Require Import Base F32 M_Types M_Utils M_Engine M_Det M_Lookup M_Feat M_Prob M_Crf M_Features M_Filler
  M_Cache M_Res M_Fs M_Json M_Load M_Inject S_Base S_Utils S_Det S_Engine S_Rules S_Feat S_Filler S_Load S_Match S_Inject S_Answer S_Made S_Narrow S_Intents
  S_Declared S_Safe S_Complete
  P_Base P_Engine P_Rules P_Feat P_Load P_Names P_Made P_Demo P_Declared P_Complete Demo Demo_Rules Demo_Prob Demo_Crf Demo_Load Demo_Home Demo_Made
  Demo_Safe Demo_Declared.
Import ListNotations.
Local Open Scope string_scope.
Local Open Scope list_scope.
Local Open Scope nat_scope.

(** ** A check of completeness, for taggers that give the labels of a room *)
Definition builtin_b (x : Ext) (e : str) : bool := match x_kind_of_identifier x e with Some _ => true | None => false end.
Definition known_b (x : Ext) (d : DatasetMetadata) (e : str) : bool := smem e (map fst (ds_entities d)) || builtin_b x e.
Definition patterns_c (x : Ext) (d : DatasetMetadata) (m : DetModel) : bool :=
  forallb (fun e => smem (fst e) (map fst (dm_patterns m)) && forallb (fun ne => known_b x d (snd ne)) (snd e)) (dm_slots m).
Definition table_c (x : Ext) (d : DatasetMetadata) (m : LookupModel) : bool :=
  forallb (fun g => forallb (builtin_b x) (es_builtin (gs_scope g)) && forallb (known_b x d) (es_custom (gs_scope g))) (lm_scopes m).
Definition filler_c (x : Ext) (d : DatasetMetadata) (m : SlotFillerModel) : bool :=
  forallb (fun ne => known_b x d (snd ne)) (sm_mapping m) &&
  match sm_crf_file m with Some _ => smem $"room" (map fst (sm_mapping m)) | None => true end.
Definition named (l : list (option str)) : list str := flat_map (fun j => match j with Some i => [i] | None => [] end) l.
Definition classes_c (cm : ClassifierModel) (entries : list (str * str)) : bool :=
  forallb (fun i => smem i (map fst entries)) (named (clm_intents cm)).
Definition regression_c (L : Loader) (fo : path -> orders) (f : fs) (dir : path) (cm : ClassifierModel) : bool :=
  match clm_featurizer cm, clm_coeffs cm with
  | Some name, Some coeffs =>
      if_ok (reads L fo f (pjoin dir name) $"featurizer.json" (fun _ => d_featurizer)) (fun m =>
      if_ok (reads L fo f (pjoin (pjoin dir name) (fst m)) $"vectorizer.json" (d_tfidf (ld_f32 L))) (fun tm =>
        let n := list_max (map snd (tm_vocab tm)) in
        match snd m with
        | None => forallb (fun row => length row =? n + 1) coeffs
        | Some pairs => if_ok (reads L fo f (pjoin (pjoin dir name) pairs) $"vectorizer.json" d_cooccurrence) (fun pm =>
            forallb (fun row => length row =? n + 1 + length (cm_pairs pm)) coeffs)
        end))
  | _, _ => true
  end.
Definition classifier_of (L : Loader) (fo : path -> orders) (f : fs) (p : path) : outcome ClassifierModel :=
  reads L fo f (pjoin p $"intent_classifier") $"intent_classifier.json" (fun _ => d_classifier (ld_f32 L)).
Definition parser_c (x : Ext) (L : Loader) (fo : path -> orders) (f : fs) (d : DatasetMetadata) (p : path) : bool :=
  if_ok (reads L fo f p $"intent_parser.json" d_deterministic) (patterns_c x d) &&
  if_ok (reads L fo f p $"intent_parser.json" d_lookup) (table_c x d) &&
  if_ok (reads L fo f p $"intent_parser.json" (fun _ => d_probabilistic)) (fun entries =>
    forallb (fun e => if_ok (reads L fo f (pjoin p (snd e)) $"slot_filler.json" d_filler) (filler_c x d)) entries &&
    if_ok (classifier_of L fo f p) (fun cm => classes_c cm entries && regression_c L fo f (pjoin p $"intent_classifier") cm)).
Definition complete_c (x : Ext) (L : Loader) (fo : path -> orders) (f : fs) (p : path) : bool :=
  if_ok (reads L fo f p $"nlu_engine.json" d_engine) (fun m =>
    forallb (fun name => parser_c x L fo f (em_dataset m) (pjoin p name)) (em_parsers m)).

Definition room_tagger (t : Tagger) : Prop :=
  forall fs labels l, tg_tag t fs = Ok labels -> In l labels ->
    exists tag, decode_tag l = Ok tag /\ (tag = $"O" \/ exists c c', tag = c :: c' :: $"room").

Lemma builtin_ok x e : builtin_b x e = true -> builtin_entity x e.
Proof. unfold builtin_b, builtin_entity. destruct (x_kind_of_identifier x e); [eauto|discriminate]. Qed.
Lemma known_ok x d e : known_b x d e = true -> known_entity x d e.
Proof. intros H. apply orb_prop in H as [H|H]; [left; apply smem_spec; exact H|right; apply builtin_ok; exact H]. Qed.

Lemma complete_ok x L fo f p : (forall q t, ld_tagger L f q = Ok t -> room_tagger t) ->
  complete_c x L fo f p = true -> engine_complete x L fo f p.
Proof.
  intros T H m name M Hn. apply says_iff in M. unfold complete_c, reads in H. rewrite M in H. cbn [if_ok] in H.
  rewrite forallb_forall in H. specialize (H name Hn). set (q := pjoin p name) in *. clearbody q. clear M Hn.
  unfold parser_c in H. apply andb_prop in H as [H H3]. apply andb_prop in H as [H1 H2]. split; [|split].
  - intros dm (_ & D). apply says_iff in D. unfold reads in H1. rewrite D in H1. cbn [if_ok] in H1. unfold patterns_c in H1.
    rewrite forallb_forall in H1. intros i decls Hi. specialize (H1 _ Hi). cbn [fst snd] in H1. apply andb_prop in H1 as [A B].
    split; [apply smem_spec; exact A|]. intros slot e He. rewrite forallb_forall in B. exact (known_ok _ _ _ (B _ He)).
  - intros lm (_ & D). apply says_iff in D. unfold reads in H2. rewrite D in H2. cbn [if_ok] in H2. unfold table_c in H2.
    rewrite forallb_forall in H2. intros g Hg. specialize (H2 _ Hg). apply andb_prop in H2 as [A B].
    rewrite forallb_forall in A, B. split; intros e He; [exact (builtin_ok _ _ (A e He))|exact (known_ok _ _ _ (B e He))].
  - intros entries (_ & D). apply (says_iff L f (fun _ => d_probabilistic)) in D || apply says_iff in D. unfold reads in H3. rewrite D in H3. cbn [if_ok] in H3.
    apply andb_prop in H3 as [A B]. split.
    + intros i dir sm Hi S. apply says_iff in S. rewrite forallb_forall in A. specialize (A _ Hi). cbn [snd] in A. rewrite S in A. cbn [if_ok] in A.
      apply andb_prop in A as [A1 A2]. split.
      * intros slot e He. rewrite forallb_forall in A1. exact (known_ok _ _ _ (A1 _ He)).
      * intros file t fs labels l F Et Tg Hl. rewrite F in A2. apply smem_spec in A2.
        destruct (T _ _ Et fs labels l Tg Hl) as (tag & E & [->|(c & c' & ->)]); exists tag || eexists; (split; [exact E|]); [left; reflexivity|].
        right. exists c, c', $"room". auto.
    + intros cm (_ & C). apply says_iff in C. unfold classifier_of, reads in B. rewrite C in B. cbn [if_ok] in B. apply andb_prop in B as [B1 B2]. split.
      * intros i Hi. unfold classes_c in B1. rewrite forallb_forall in B1. apply smem_spec, B1. unfold named. apply in_flat_map. exists (Some i).
        split; [exact Hi|left; reflexivity].
      * intros fn tf co tm n coeffs row E1 E2 Hr S1 S2 (Lw & Lm). unfold regression_c, reads in B2. rewrite E1, E2 in B2.
        apply says_iff in S1. rewrite S1 in B2. cbn [if_ok fst snd] in B2. apply says_iff in S2. rewrite S2 in B2. cbn [if_ok] in B2. cbv zeta in B2.
        assert (En : list_max (map snd (tm_vocab tm)) = n).
        { destruct Lw as (w & Lw). apply Nat.le_antisymm.
          - apply list_max_le. apply Forall_forall. intros k Hk. apply in_map_iff in Hk as ([w' k'] & <- & Hk). exact (Lm _ _ Hk).
          - pose proof (proj1 (list_max_le (map snd (tm_vocab tm)) _) (Nat.le_refl _)) as F. rewrite Forall_forall in F.
            apply F. apply in_map_iff. exists (w, n). auto. }
        rewrite En in B2. destruct co as [pairs|].
        -- intros pm S3. apply says_iff in S3. rewrite S3 in B2. cbn [if_ok] in B2. rewrite forallb_forall in B2. apply Nat.eqb_eq, B2, Hr.
        -- rewrite forallb_forall in B2. apply Nat.eqb_eq, B2, Hr.
Qed.

(** A check that the parsers list the same intents. *)
Definition knows_c (L : Loader) (fo : path -> orders) (f : fs) (p : path) (i : str) : bool :=
  if_ok (reads L fo f p $"intent_parser.json" d_deterministic) (fun m => smem i (map fst (dm_patterns m))) &&
  if_ok (reads L fo f p $"intent_parser.json" d_lookup) (fun m => smem i (lm_intents_names m)) &&
  if_ok (reads L fo f p $"intent_parser.json" (fun _ => d_probabilistic)) (fun entries => smem i (map fst entries)).
Definition listed_c (L : Loader) (fo : path -> orders) (f : fs) (p : path) : list str :=
  get_ok [] (let* m := reads L fo f p $"intent_parser.json" d_deterministic in Ok (map fst (dm_patterns m))) ++
  get_ok [] (let* m := reads L fo f p $"intent_parser.json" d_lookup in Ok (lm_intents_names m)) ++
  get_ok [] (let* m := classifier_of L fo f p in Ok (named (clm_intents m))).
Definition everywhere_c (L : Loader) (fo : path -> orders) (f : fs) (p : path) (i : str) : bool :=
  if_ok (reads L fo f p $"nlu_engine.json" d_engine) (fun m => forallb (fun name => knows_c L fo f (pjoin p name) i) (em_parsers m)).
Definition shared_c (L : Loader) (fo : path -> orders) (f : fs) (p : path) : bool :=
  if_ok (reads L fo f p $"nlu_engine.json" d_engine) (fun m =>
    forallb (fun name => forallb (everywhere_c L fo f p) (listed_c L fo f (pjoin p name))) (em_parsers m)).

Lemma everywhere_ok L fo f p i : everywhere_c L fo f p i = true -> known_everywhere L fo f p i.
Proof.
  intros H m name M Hn. apply says_iff in M. unfold everywhere_c, reads in H. rewrite M in H. cbn [if_ok] in H.
  rewrite forallb_forall in H. specialize (H name Hn). unfold knows_c, reads in H. apply andb_prop in H as [H H3]. apply andb_prop in H as [H1 H2].
  split.
  - intros [dm|lm] (_ & D); apply says_iff in D.
    + rewrite D in H1. apply smem_spec. exact H1.
    + rewrite D in H2. apply smem_spec. exact H2.
  - intros entries (_ & D). apply says_iff in D. rewrite D in H3. apply smem_spec. exact H3.
Qed.
Lemma shared_ok L fo f p : shared_c L fo f p = true -> intents_shared L fo f p.
Proof.
  intros H m name i M Hn Pl. apply everywhere_ok. apply says_iff in M. unfold shared_c, reads in H. rewrite M in H. cbn [if_ok] in H.
  rewrite forallb_forall in H. specialize (H name Hn). rewrite forallb_forall in H. apply H. unfold listed_c, classifier_of, reads.
  destruct Pl as [(r & R & Li)|(cm & (_ & C) & Li)].
  - specialize (Li i eq_refl). destruct r as [dm|lm]; destruct R as (_ & D); apply says_iff in D; rewrite D; cbn [bind get_ok].
    + apply in_or_app. left. exact Li.
    + apply in_or_app. right. apply in_or_app. left. exact Li.
  - apply says_iff in C. rewrite C. cbn [bind get_ok]. apply in_or_app. right. apply in_or_app. right.
    destruct Li as [Li|[_ Li]]; [|discriminate]. unfold named. apply in_flat_map. exists (Some i). split; [exact Li|left; reflexivity].
Qed.

(** ** The demo engine *)
Lemma demo_room : room_tagger demo_tagger.
Proof.
  intros fs labels l H Hl. cbn [demo_tagger tg_tag] in H. injection H as <-. apply in_map_iff in Hl as (row & <- & _). unfold word_tag.
  destruct (sget $"ngram_1" row) as [w|]; [destruct (str_eqb w _); [|destruct (str_eqb w _)]|]; eexists; (split; [vm_compute; reflexivity|]).
  2-4: try (left; reflexivity).
  all: right; eexists; eexists; reflexivity.
Qed.
Lemma home_taggers f q t : ld_tagger home_loader f q = Ok t -> t = demo_tagger.
Proof. intros H. cbn [ld_tagger home_loader] in H. destruct (f (resolve q)) as [[]|]; try discriminate. injection H as <-. reflexivity. Qed.

Lemma home_complete : engine_complete demo_ext home_loader home_orders home dir_e.
Proof. apply complete_ok; [intros q t H; rewrite (home_taggers _ _ _ H); exact demo_room|]. vm_compute. reflexivity. Qed.
Lemma home_shared : intents_shared home_loader home_orders home dir_e.
Proof. apply shared_ok. vm_compute. reflexivity. Qed.
Lemma home_known : known_everywhere home_loader home_orders home dir_e $"setTemp".
Proof. apply everywhere_ok. vm_compute. reflexivity. Qed.

Lemma home_libraries : libraries_answer home_loader home.
Proof.
  split; [|split].
  - intros p b H s kinds n e. cbn [ld_builtin home_loader] in H. injection H as <-. unfold demo_builtin. discriminate.
  - intros p g H s names n e. cbn [ld_gazetteer home_loader] in H.
    assert (G : g = home_gaz) by (injection H as <-; reflexivity). subst g. unfold home_gaz. discriminate.
  - intros p t H fs e. rewrite (home_taggers _ _ _ H). discriminate.
Qed.
Lemma home_asked : finds_what_is_asked home_loader home.
Proof.
  split.
  - intros p b H s kinds n es e Es He. cbn [ld_builtin home_loader] in H. injection H as <-. unfold demo_builtin in Es. injection Es as <-.
    apply in_flat_map in He as (t & _ & He). destruct (forallb _ _); [|destruct He]. cbn [andb] in He.
    match type of He with context [if ?c then _ else _] => destruct c eqn:S end; [|destruct He]. destruct He as [<-|[]]. apply smem_spec. exact S.
  - intros p g H s names n es e Es He. cbn [ld_gazetteer home_loader] in H.
    assert (G : g = home_gaz) by (injection H as <-; reflexivity). subst g. clear H.
    assert (K := f_equal (get_ok []) Es). unfold home_gaz, get_ok in K. rewrite <- K in He. clear Es K. apply in_app_or in He as [He|He].
    + apply in_flat_map in He as (t & _ & He). apply in_flat_map in He as (v & _ & He).
      destruct (str_eqb (tk_value t) (fst v)); [|destruct He]. cbn [andb] in He. destruct (smem (snd (snd v)) names) eqn:S; [|destruct He].
      destruct He as [<-|[]]. apply smem_spec. exact S.
    + apply in_flat_map in He as (i & _ & He). destruct (str_eqb _ phrase); [|destruct He]. cbn [andb] in He.
      destruct (smem $"room" names) eqn:S; [|destruct He]. destruct He as [<-|[]]. apply smem_spec. exact S.
Qed.
Lemma demo_names : builtin_names demo_ext.
Proof.
  intros name k H. cbn [x_kind_of_identifier demo_ext] in *. unfold demo_kind in *. destruct (str_eqb name _) eqn:E; [|discriminate].
  injection H as <-. rewrite E. reflexivity.
Qed.
Lemma home_filters : names_known home_engine (Some [$"setTemp"]) /\ names_known home_engine None.
Proof.
  split; [|intros l i E; discriminate E]. intros l i E Hi. injection E as <-. destruct Hi as [<-|[]]. 
  exists (match sget $"setTemp" (ds_slot_name_mappings (en_dataset home_engine)) with Some m => m | None => [] end).
  apply sget_In. vm_compute. reflexivity.
Qed.
Lemma home_declares : declares (en_dataset home_engine) $"setTemp" $"degrees" $"snips/number" /\
  known_entity demo_ext (en_dataset home_engine) $"snips/number".
Proof.
  split; [apply declared_ok; vm_compute; reflexivity|]. right. exists $"snips/number". reflexivity.
Qed.

(** ** An engine with something missing *)
(** The intent [setTemp] has no slot filler. *)
Definition lacking : Loader :=
  mkLoader (fun c => if str_eqb c $"PM" then Some (obj [("slot_fillers", JArr [obj [("intent", txt "lightOn"); ("slot_filler_name", txt "filler_0")]])])
                     else sget c home_documents) home_f32 demo_lang (fun _ => $"en") demo_compile
           (fun _ _ => Ok (fun s kinds alts => demo_builtin s kinds false alts))
           (fun _ _ => Ok home_gaz)
           (fun f p => match f (resolve p) with Some (File _) => Ok demo_tagger | _ => Err EIo end).
Definition load_lacking : outcome Engine :=
  from_path demo_ext demo_shape no_ngrams demo_math lacking home_orders home_orders home dir_e.
Definition lacking_engine : Engine := get_ok no_engine load_lacking.
Lemma lacking_eq : load_lacking = Ok lacking_engine.
Proof. apply get_ok_eq. vm_compute. reflexivity. Qed.
Lemma lacking_sound : sound_files lacking home_orders home.
Proof.
  intros p j (c & F & J). cbn [ld_json lacking] in J. destruct (str_eqb c $"PM") eqn:E.
  - clear E F c. injection J as <-. split; [|split; [|split; [|split; [|split]]]]; intros m D; exfalso; vm_compute in D; discriminate D.
  - apply (home_sound home p j). exists c. split; [exact F|exact J].
Qed.
Lemma lacking_texts : texts_below_limit demo_ext (en_resources lacking_engine) $"set it".
Proof.
  split; [vm_compute; reflexivity|]. intros s [(r & ->)|(l & stemmer & words & Hst & Hw & ->)].
  - cbn [x_lower demo_ext]. rewrite map_length. unfold substring. rewrite firstn_length, skipn_length.
    assert (B : length $"set it" = 6) by (vm_compute; reflexivity). lia.
  - assert (N : stemmer = None) by (destruct Hst as [->| ->]; reflexivity). subst stemmer. clear Hst.
    destruct Hw as [->| ->]; vm_compute; reflexivity.
Qed.
Lemma lacking_fails : parse_with_alternatives demo_ext id_order id_order lacking_engine $"set it" None None 0 0 = Err EUnknownIntent.
Proof. vm_compute. reflexivity. Qed.
Lemma home_succeeds : exists r, parse_with_alternatives demo_ext id_order id_order home_engine $"set it" None None 0 0 = Ok r /\ ir_name (ps_intent r) = Some $"setTemp".
Proof.
  exists (home_parse "set it" 0). split; [apply get_ok_eq; vm_compute; reflexivity|vm_compute; reflexivity].
Qed.
Lemma loading_checks_nothing :
  ~ (forall x shape ngrams mx L fo uo f p en input o1 o2,
       externals_behave x mx L f -> sound_files L fo f -> libraries_answer L f -> finds_what_is_asked L f -> builtin_names x ->
       from_path x shape ngrams mx L fo uo f p = Ok en -> texts_below_limit x (en_resources en) input ->
       exists r, parse_with_alternatives x o1 o2 en input None None 0 0 = Ok r).
Proof.
  intros H. destruct (H demo_ext demo_shape no_ngrams demo_math lacking home_orders home_orders home dir_e lacking_engine $"set it" id_order id_order
    (home_externals home) lacking_sound home_libraries home_asked demo_names lacking_eq lacking_texts) as (r & R).
  rewrite lacking_fails in R. discriminate.
Qed.
