(** Proofs for C77. *)
From Coq Require Import String List NArith ZArith Bool Arith Lia.
From Verif Require Import Base F32 M_Types M_Engine M_Det M_Lookup M_Feat M_Prob M_Features M_Filler M_Cache M_Res M_Fs M_Json M_Load
  M_Inject S_Base S_Utils S_Engine S_Det S_Rank S_Rules S_Load S_Match S_Inject S_Format S_Answer S_Made
  P_Base P_Engine P_Load P_Match P_MatchDet P_Format.
Import ListNotations.
Local Open Scope nat_scope.

Lemma Forall2_conv {A B} (R S : A -> B -> Prop) l r : (forall a b, In a l -> R a b -> S a b) -> Forall2 R l r -> Forall2 S l r.
Proof.
  intros H F. induction F; constructor; [apply H; [left; reflexivity|assumption]|].
  apply IHF. intros a b I. apply H. right. exact I.
Qed.

Section Made.
  Context (x : Ext) (shape : str -> str) (ngrams : list str -> nat -> list str) (mx : Math) (L : Loader)
          (fo : path -> orders) (uo : path -> nat -> HashOrder) (f : fs).

  Lemma says_iff {A} p name (d : orders -> decoder A) a :
    read_json L f (pjoin p name) (d (fo (pjoin p name))) = Ok a <-> file_says L fo f p name d a.
  Proof. apply read_json_ok. Qed.

  Section Res.
    Context (res : Resources).
    Lemma tfidf_iff p t : load_tfidf x L fo f p res = Ok t <-> tfidf_at x L fo f res p t.
    Proof.
      unfold load_tfidf, tfidf_at. cbv zeta. split.
      - intros H. bind_inv H. apply (says_iff p _ (d_tfidf (ld_f32 L))) in E. eauto.
      - intros (m & H & N). apply says_iff in H. rewrite H. exact N.
    Qed.
    Lemma cooc_iff p t : load_cooc x L fo f p res = Ok t <-> cooc_at x L fo f res p t.
    Proof.
      unfold load_cooc, cooc_at. cbv zeta. split.
      - intros H. bind_inv H. apply (says_iff p _ d_cooccurrence) in E. eauto.
      - intros (m & H & N). apply says_iff in H. rewrite H. exact N.
    Qed.
    Lemma featurizer_iff p t : load_featurizer x L fo f p res = Ok t <-> featurizer_at x L fo f res p t.
    Proof.
      unfold load_featurizer, featurizer_at. split.
      - intros H. bind_inv H. apply (says_iff p _ (fun _ => d_featurizer)) in E. bind_inv H. apply tfidf_iff in E0.
        bind_inv H. injection H as <-. exists a. split; [exact E|]. split; [exact E0|]. cbn [fz_cooc].
        destruct (snd a) as [n|].
        + bind_inv E1. injection E1 as <-. apply cooc_iff in E2. eauto.
        + injection E1 as <-. reflexivity.
      - intros (m & H & T & C). apply says_iff in H. rewrite H. cbn [bind]. apply tfidf_iff in T. rewrite T. cbn [bind].
        destruct t as [t c]. cbn [fz_tfidf fz_cooc] in *. destruct (snd m) as [n|].
        + destruct C as (c' & -> & C). apply cooc_iff in C. rewrite C. reflexivity.
        + rewrite C. reflexivity.
    Qed.
    Lemma classifier_iff p c : load_classifier x ngrams L fo uo f p res = Ok c <-> classifier_at x ngrams L fo uo f res p c.
    Proof.
      unfold load_classifier, classifier_at. split.
      - intros H. bind_inv H. apply (says_iff p _ (fun _ => d_classifier (ld_f32 L))) in E. bind_inv H. bind_inv H.
        injection H as <-. exists a. split; [exact E|]. cbn [cl_intents cl_featurizer cl_logreg]. split; [reflexivity|]. split.
        + destruct (clm_featurizer a) as [n|].
          * bind_inv E0. injection E0 as <-. apply featurizer_iff in E2. eauto.
          * injection E0 as <-. reflexivity.
        + destruct (clm_intercept a) as [i|], (clm_coeffs a) as [k|]; try (injection E1 as <-; reflexivity).
          bind_inv E1. injection E1 as <-. eauto.
      - intros (m & H & I & F & C). apply says_iff in H. rewrite H. cbn [bind]. destruct c as [ci cf cl].
        cbn [cl_intents cl_featurizer cl_logreg] in *. subst ci.
        assert (EF : match clm_featurizer m with
                     | Some name => let* fz := load_featurizer x L fo f (pjoin p name) res in
                                    Ok (Some (featurize x ngrams (uo p 0) (uo p 1) fz))
                     | None => Ok None end = Ok cf).
        { destruct (clm_featurizer m) as [n|]; [|rewrite F; reflexivity].
          destruct F as (fz & F & ->). apply featurizer_iff in F. rewrite F. reflexivity. }
        rewrite EF. cbn [bind].
        destruct (clm_intercept m) as [i|], (clm_coeffs m) as [k|]; try (rewrite C; reflexivity).
        destruct C as (lr & C & ->). rewrite C. reflexivity.
    Qed.
    Lemma filler_iff p g : build_slot_filler x shape L fo f p res = Ok g <-> filler_at x shape L fo f res p g.
    Proof.
      unfold build_slot_filler, filler_at, unit_at, load_crf. cbv zeta. split.
      - intros H. bind_inv H. apply (says_iff p _ (fun _ => d_unit)) in E. destruct a; try discriminate.
        split; [exact E|]. bind_inv H. injection H as <-. bind_inv E0. apply (says_iff p _ d_filler) in E1. eauto.
      - intros (U & m & cf & H & N & ->). apply says_iff in U. rewrite U. cbn [bind]. apply says_iff in H. rewrite H.
        cbn [bind]. rewrite N. reflexivity.
    Qed.
    Lemma parser_iff p ip :
      (let* u := read_json L f (pjoin p $"metadata.json") d_unit in build_intent_parser x shape ngrams mx L fo uo f p u res) = Ok ip
      <-> parser_at x shape ngrams mx L fo uo f res p ip.
    Proof.
      unfold parser_at, unit_at. split.
      - intros H. bind_inv H. apply (says_iff p _ (fun _ => d_unit)) in E. destruct a; cbn [build_intent_parser] in H; try discriminate.
        + left. split; [exact E|]. bind_inv H. injection H as <-. unfold load_deterministic in E0. cbv zeta in E0. bind_inv E0.
          apply (says_iff p _ d_deterministic) in E1. eauto.
        + right. left. split; [exact E|]. bind_inv H. injection H as <-. unfold load_lookup in E0. cbv zeta in E0. bind_inv E0.
          apply (says_iff p _ d_lookup) in E1. eauto.
        + right. right. split; [exact E|]. bind_inv H. injection H as <-. unfold load_probabilistic in E0. bind_inv E0.
          apply (says_iff p _ (fun _ => d_probabilistic)) in E1. bind_inv E0. bind_inv E0. injection E0 as <-.
          unfold build_intent_classifier in E2. bind_inv E2. apply (says_iff _ _ (fun _ => d_unit)) in E0.
          match goal with u : unit_name |- _ => destruct u; try discriminate end. bind_inv E2. injection E2 as <-. apply classifier_iff in E4.
          match goal with c : Classifier |- _ => exists a0, c, a2 end. split; [exact E1|]. split; [exact E0|]. split; [exact E4|]. split; [|reflexivity].
          apply mapM_ok_Forall2 in E3. revert E3. apply Forall2_conv. intros e g _ H. bind_inv H. injection H as <-.
          split; [reflexivity|]. cbn [snd]. apply filler_iff. exact E2.
      - intros [(U & m & dp & H & N & ->)|[(U & m & lp & H & N & ->)|(U & es & c & fillers & H & UC & C & F & ->)]];
          apply says_iff in U; rewrite U; cbn [bind build_intent_parser]; apply says_iff in H.
        + unfold load_deterministic. cbv zeta. rewrite H. cbn [bind]. rewrite N. reflexivity.
        + unfold load_lookup. cbv zeta. rewrite H. cbn [bind]. rewrite N. reflexivity.
        + unfold load_probabilistic. rewrite H. cbn [bind]. unfold build_intent_classifier. apply says_iff in UC.
          rewrite UC. cbn [bind]. apply classifier_iff in C. rewrite C. cbn [bind].
          rewrite (proj2 (mapM_ok_Forall2 _ es fillers)); [reflexivity|].
          revert F. apply Forall2_conv. intros e g _ (E & G). apply filler_iff in G. rewrite G. cbn [bind].
          destruct g as [g1 g2]. cbn [fst snd] in *. subst g1. reflexivity.
    Qed.
  End Res.

  Lemma engine_iff p en : from_path x shape ngrams mx L fo uo f p = Ok en <-> engine_at x shape ngrams mx L fo uo f p en.
  Proof.
    unfold from_path, engine_at, load_engine_shared_resources, load_model, check_model_version. cbv zeta. split.
    - intros H. bind_inv H. bind_inv H. bind_inv H. injection H as <-. cbn [en_resources en_dataset en_parsers].
      bind_inv E. bind_inv E2. destruct (str_eqb a3 MODEL_VERSION) eqn:V; [|discriminate]. apply str_eqb_spec in V. subst a3.
      split; [apply says_iff; exact E3|]. rewrite E. cbn [bind]. split; [exact E0|].
      exists a. split; [apply says_iff; exact E|]. split; [reflexivity|].
      apply mapM_ok_Forall2 in E1. revert E1. apply Forall2_conv. intros name ip _ H. cbv zeta in H. apply parser_iff. exact H.
    - intros (V & R & m & H & D & P). apply says_iff in V. rewrite V. cbn [bind]. change (str_eqb $"0.20.0" MODEL_VERSION) with true.
      cbn [bind]. apply says_iff in H. rewrite H in R |- *. cbn [bind] in R |- *. rewrite R. cbn [bind].
      unfold load_intent_parsers. rewrite (proj2 (mapM_ok_Forall2 _ (em_parsers m) (en_parsers en))).
      + cbn [bind]. destruct en; cbn in D |- *. rewrite D. reflexivity.
      + revert P. apply Forall2_conv. intros name ip _ Q. cbv zeta. apply parser_iff. exact Q.
  Qed.

  Lemma entity_parsers p en : from_path x shape ngrams mx L fo uo f p = Ok en ->
    exists m b cm l gaz, file_says L fo f p $"nlu_engine.json" d_engine m /\
      ld_builtin L f (pjoin p (em_builtin m)) = Ok b /\
      (forall s kinds cached n, rs_builtin (en_resources en) s kinds cached n = b (x_lower x s) kinds n) /\
      file_says L fo f (pjoin p (em_custom m)) $"metadata.json" (fun _ => d_custom_metadata) cm /\
      ld_lang L (cu_language cm) = Some l /\
      ld_gazetteer L f (pjoin (pjoin p (em_custom m)) (cu_directory cm)) = Ok gaz /\
      rs_custom (en_resources en) = custom_entities x l gaz.
  Proof.
    intros H. apply engine_iff in H. destruct H as (_ & R & m & M & _ & _).
    unfold load_engine_shared_resources in R. cbv zeta in R. pose proof M as M'. apply says_iff in M'. rewrite M' in R. cbn [bind] in R.
    unfold resources_of in R. bind_inv R. unfold load_shared_resources in R. do 7 bind_inv R.
    unfold load_builtin in E5. bind_inv E5. injection E5 as <-. unfold load_custom in E6. bind_inv E6. bind_inv E6. bind_inv E6.
    injection E6 as <-. apply (says_iff _ _ (fun _ => d_custom_metadata)) in E5.
    destruct (ld_lang L (cu_language a5)) as [l|] eqn:K; [|discriminate]. injection E8 as <-.
    destruct en as [ds ps rs]. cbn [en_resources] in *. injection R as <-. cbn [rs_builtin rs_custom].
    do 5 eexists. split; [exact M|]. split; [eassumption|]. split; [reflexivity|]. split; [eassumption|]. split; [exact K|].
    split; [eassumption|]. reflexivity.
  Qed.
  Lemma loaded_case_ignored p en s s' : from_path x shape ngrams mx L fo uo f p = Ok en -> x_lower x s = x_lower x s' ->
    (forall kinds cached n, rs_builtin (en_resources en) s kinds cached n = rs_builtin (en_resources en) s' kinds cached n) /\
    (forall kinds n, rs_custom (en_resources en) s kinds n = rs_custom (en_resources en) s' kinds n).
  Proof.
    intros H E. apply entity_parsers in H as (m & b & cm & l & gaz & _ & _ & B & _ & _ & _ & C). split.
    - intros. rewrite !B, E. reflexivity.
    - intros. rewrite C. unfold custom_entities. rewrite E. reflexivity.
  Qed.

  (** ** Rules *)
  Lemma field_map_NoDup {K V} names j name (key : str -> K -> Prop) (R : meant V) m :
    field names j name (map_of key R) m -> NoDup (map fst m).
  Proof. intros (v & _ & kvs & _ & N & _). exact N. Qed.
  Lemma det_once o j m : d_deterministic o j = Ok m -> det_keys_once m.
  Proof.
    intros H. apply (proj1 (deterministic_sound o)) in H. destruct H as (_ & _ & P & _ & S & W & _).
    split; [exact (field_map_NoDup _ _ _ _ _ _ P)|]. split; [exact (field_map_NoDup _ _ _ _ _ _ S)|].
    destruct W as [W|[_ ->]]; [exact (field_map_NoDup _ _ _ _ _ _ W)|constructor].
  Qed.
  Lemma lookup_once o j m : d_lookup o j = Ok m -> NoDup (map fst (lm_stop_whitelist m)).
  Proof.
    intros H. apply (proj1 (lookup_sound o)) in H. destruct H as (_ & _ & _ & _ & _ & _ & W & _).
    exact (field_map_NoDup _ _ _ _ _ _ W).
  Qed.

  Lemma unit_fun p u u' : unit_at L fo f p u -> unit_at L fo f p u' -> u = u'.
  Proof. intros H H'. apply says_iff in H, H'. congruence. Qed.
  Lemma says_fun {A} p name (d : orders -> decoder A) a a' : file_says L fo f p name d a -> file_says L fo f p name d a' -> a = a'.
  Proof. intros H H'. apply says_iff in H, H'. congruence. Qed.

  (** What a parser made from rules answers. *)
  Lemma rules_answer res p ip r input wl a : parser_at x shape ngrams mx L fo uo f res p ip -> rules_at L fo f p r ->
    externals_ok x L res input -> of_reasonable_size x res input r -> ip_parse ip input wl = Ok a ->
    (forall i, ir_name (pr_intent a) = Some i -> understood x L res input wl r i (pr_slots a)) /\
    ((forall i slots, ~ understood x L res input wl r i slots) -> a = no_intent) /\
    (forall i slots, understood x L res input wl r i slots ->
       (forall j s, understood x L res input wl r j s -> j = i) -> pr_intent a = mkIR (Some i) f1).
  Proof.
    intros P R (T & B & C & G) Z A. destruct r as [m|m]; cbn [rules_at understood of_reasonable_size] in *; destruct R as [U H].
    - destruct P as [(U' & m' & dp & H' & N & ->)|[(U' & _)|(U' & _)]]; try (pose proof (unit_fun _ _ _ U U'); discriminate).
      rewrite <- (says_fun _ _ _ _ _ H H') in N. cbn [ip_parse det_intent_parser] in A.
      assert (K : det_keys_once m) by (destruct H as (j & _ & D); exact (det_once _ _ _ D)).
      assert (S : det_setting x (ld_lang L) (ld_regex L) (uo p 0) (uo p 1) (uo p 2) m res dp input)
        by (unfold det_setting; repeat (split; [assumption|]); assumption).
      assert (LG : ld_lang L (dm_language m) = Some (dp_lang dp)).
      { clear -N. unfold det_new in N. bind_inv N. destruct (ld_lang L (dm_language m)) as [l|]; [|discriminate]. injection E as <-.
        bind_inv N. injection N as <-. reflexivity. }
      split; [|split].
      + intros i I. exists (dp_lang dp). split; [exact LG|]. exact (patterns_recognised _ _ _ _ _ _ _ _ _ _ _ _ _ _ S A I).
      + intros NO. apply (patterns_nothing _ _ _ _ _ _ _ _ _ _ _ _ _ S A). intros i slots Y. apply (NO i slots). eauto.
      + intros i slots (l & E & Y) O. rewrite LG in E. injection E as <-.
        rewrite (patterns_certain _ _ _ _ _ _ _ _ _ _ _ _ _ _ _ S A Y); [reflexivity|]. intros j s Q. apply (O j s). eauto.
    - destruct P as [(U' & _)|[(U' & m' & lp & H' & N & ->)|(U' & _)]]; try (pose proof (unit_fun _ _ _ U U'); discriminate).
      rewrite <- (says_fun _ _ _ _ _ H H') in N. cbn [ip_parse lookup_intent_parser] in A.
      assert (K : NoDup (map fst (lm_stop_whitelist m))) by (destruct H as (j & _ & D); exact (lookup_once _ _ _ D)).
      assert (S : lookup_setting (ld_lang L) (uo p 0) m res lp) by (split; [assumption|split; assumption]).
      assert (LG : ld_lang L (lm_language m) = Some (lp_lang lp)).
      { clear -N. unfold lookup_new in N. bind_inv N. destruct (ld_lang L (lm_language m)) as [l|]; [|discriminate]. injection E as <-.
        injection N as <-. reflexivity. }
      split; [|split].
      + intros i I. exists (lp_lang lp). split; [exact LG|]. exact (proj1 (lookup_recognised _ _ _ _ _ _ _ _ _ _ _ S A I)).
      + intros NO. apply (lookup_nothing _ _ _ _ _ _ _ _ _ _ S A). intros i slots Y. apply (NO i slots). eauto.
      + intros i slots (l & E & Y) O. rewrite LG in E. injection E as <-.
        apply (lookup_certain _ _ _ _ _ _ _ _ _ _ _ _ S A Y). intros j s Q. apply (O j s). eauto.
  Qed.

  Lemma Forall2_app_inv {A B} (R : A -> B -> Prop) l1 l2 r : Forall2 R (l1 ++ l2) r ->
    exists r1 r2, r = r1 ++ r2 /\ Forall2 R l1 r1 /\ Forall2 R l2 r2.
  Proof. intros H. apply Forall2_app_inv_l in H. destruct H as (r1 & r2 & H1 & H2 & E). eauto. Qed.

  (** The loop over parsers that understand nothing. *)
  Lemma skip_silent en p input wl salts : externals_ok x L (en_resources en) input ->
    forall names ips rest sc out,
    Forall2 (fun name ip => parser_at x shape ngrams mx L fo uo f (en_resources en) (pjoin p name) ip) names ips ->
    none_understands x L fo f p (en_resources en) input wl names ->
    parse_loop x en input wl salts sc (ips ++ rest) = Ok out ->
    exists sc', parse_loop x en input wl salts sc' rest = Ok out /\ (sc' = f1 \/ (names = [] /\ sc' = sc)).
  Proof.
    intros X names. induction names as [|n names IH]; intros ips rest sc out F S H.
    - inversion F; subst. exists sc. split; [exact H|]. right. split; reflexivity.
    - apply Forall2_cons_l in F. destruct F as (ip & ips' & -> & P & F). cbn [app parse_loop] in H. bind_inv H.
      destruct (S n (or_introl eq_refl)) as (r & R & Z & NO).
      pose proof (proj1 (proj2 (rules_answer _ _ _ _ _ _ _ P R X Z E)) NO) as ->. cbn [no_intent pr_intent ir_name ir_score] in H.
      destruct (IH ips' rest f1 out F (fun k I => S k (or_intror I)) H) as (sc' & Hs & K).
      exists sc'. split; [exact Hs|]. left. destruct K as [K|[_ K]]; exact K.
  Qed.

  Lemma main_loop o1 o2 en input w b n salts out : parse_with_alternatives x o1 o2 en input w b n salts = Ok out ->
    exists wl res0, get_intents_whitelist o1 en w b = Ok wl /\ parse_loop x en input wl salts f0 (en_parsers en) = Ok res0 /\
      ps_intent out = ps_intent res0 /\ ps_slots out = ps_slots res0.
  Proof.
    intros H. apply pwa_same_main in H as (res0 & H & _ & _ & I & S). rewrite pwa_zero in H. bind_inv H. eauto 8.
  Qed.

  Lemma learnt p en m before name after r o1 o2 input w b wl n salts i slots out :
    from_path x shape ngrams mx L fo uo f p = Ok en -> externals_ok x L (en_resources en) input ->
    file_says L fo f p $"nlu_engine.json" d_engine m -> em_parsers m = before ++ name :: after ->
    get_intents_whitelist o1 en w b = Ok wl ->
    none_understands x L fo f p (en_resources en) input wl before ->
    rules_at L fo f (pjoin p name) r -> of_reasonable_size x (en_resources en) input r ->
    understood x L (en_resources en) input wl r i slots ->
    (forall j s, understood x L (en_resources en) input wl r j s -> j = i) ->
    parse_with_alternatives x o1 o2 en input w b n salts = Ok out -> ps_intent out = mkIR (Some i) f1.
  Proof.
    intros H X M Em W S R Z Y O Q. apply engine_iff in H. destruct H as (_ & _ & m' & M' & _ & F).
    rewrite <- (says_fun _ _ _ _ _ M M'), Em in F. apply Forall2_app_inv in F. destruct F as (r1 & r2 & Er & F1 & F2).
    apply Forall2_cons_l in F2. destruct F2 as (ip & r3 & -> & P & F2).
    apply main_loop in Q. destruct Q as (wl' & res0 & W' & Lo & -> & _). rewrite W in W'. injection W' as <-.
    rewrite Er in Lo. destruct (skip_silent en p input wl salts X before r1 _ _ _ F1 S Lo) as (sc' & Lo' & _).
    cbn [parse_loop] in Lo'. bind_inv Lo'.
    pose proof (proj2 (proj2 (rules_answer _ _ _ _ _ _ _ P R X Z E)) i slots Y O) as K. rewrite K in Lo'. cbn [ir_name] in Lo'.
    bind_inv Lo'. injection Lo' as <-. reflexivity.
  Qed.

  Lemma nothing_learnt p en m o1 o2 input w b wl n salts out :
    from_path x shape ngrams mx L fo uo f p = Ok en -> externals_ok x L (en_resources en) input ->
    file_says L fo f p $"nlu_engine.json" d_engine m -> em_parsers m <> [] ->
    get_intents_whitelist o1 en w b = Ok wl ->
    none_understands x L fo f p (en_resources en) input wl (em_parsers m) ->
    parse_with_alternatives x o1 o2 en input w b n salts = Ok out -> ps_intent out = mkIR None f1 /\ ps_slots out = [].
  Proof.
    intros H X M Em W S Q. apply engine_iff in H. destruct H as (_ & _ & m' & M' & _ & F).
    rewrite <- (says_fun _ _ _ _ _ M M') in F. apply main_loop in Q. destruct Q as (wl' & res0 & W' & Lo & -> & ->).
    rewrite W in W'. injection W' as <-. rewrite <- (app_nil_r (en_parsers en)) in Lo.
    destruct (skip_silent en p input wl salts X _ _ [] _ _ F S Lo) as (sc' & Lo' & K). cbn [parse_loop] in Lo'. injection Lo' as <-.
    destruct K as [->|[K _]]; [split; reflexivity|contradiction].
  Qed.

  Lemma answer_learnt p en m o1 o2 input w b wl n salts out i :
    from_path x shape ngrams mx L fo uo f p = Ok en -> externals_ok x L (en_resources en) input ->
    file_says L fo f p $"nlu_engine.json" d_engine m ->
    (forall name, In name (em_parsers m) -> exists r, rules_at L fo f (pjoin p name) r /\ of_reasonable_size x (en_resources en) input r) ->
    get_intents_whitelist o1 en w b = Ok wl ->
    parse_with_alternatives x o1 o2 en input w b n salts = Ok out -> ir_name (ps_intent out) = Some i ->
    exists name r slots, In name (em_parsers m) /\ rules_at L fo f (pjoin p name) r /\
      understood x L (en_resources en) input wl r i slots /\
      resolve_slots x en input slots salts = Ok (ps_slots out).
  Proof.
    intros H X M A W Q I. apply engine_iff in H. destruct H as (_ & _ & m' & M' & _ & F).
    rewrite <- (says_fun _ _ _ _ _ M M') in F. apply main_loop in Q. destruct Q as (wl' & res0 & W' & Lo & EI & ES).
    rewrite W in W'. injection W' as <-. rewrite EI in I. rewrite ES. clear EI ES M M'. set (sc := f0) in Lo. clearbody sc. revert sc Lo A. induction F as [|name ip names ips P F IH]; intros sc Lo A.
    - cbn [parse_loop] in Lo. injection Lo as <-. discriminate I.
    - cbn [parse_loop] in Lo. bind_inv Lo. destruct (A name (or_introl eq_refl)) as (r & R & Z).
      pose proof (proj1 (rules_answer _ _ _ _ _ _ _ P R X Z E)) as K.
      destruct (ir_name (pr_intent a)) as [k|] eqn:N.
      + bind_inv Lo. injection Lo as <-. cbn [ps_intent ps_slots] in *. rewrite N in I. injection I as ->.
        exists name, r, (pr_slots a). split; [left; reflexivity|]. split; [exact R|]. split; [apply K; reflexivity|exact E0].
      + destruct (IH _ Lo (fun k' I' => A k' (or_intror I'))) as (name' & r' & slots & I' & R').
        exists name', r', slots. split; [right; exact I'|exact R'].
  Qed.
End Made.
