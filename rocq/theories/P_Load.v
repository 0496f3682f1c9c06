(** Lemmas about loading an engine. *)
From Coq Require Import String List NArith ZArith Bool Arith Lia.
From Verif Require Import Base F32 M_Types M_Engine M_Det M_Lookup M_Feat M_Prob M_Features M_Filler
  M_Res M_Fs M_Json M_Load S_Base S_Engine S_Prob S_Load P_Base P_Engine P_Prob.
Import ListNotations.
Local Open Scope nat_scope.

(** ** Fields *)
Lemma find_field_present kvs n v :
  find_field kvs n = Ok (Present v) <->
  exists before after, kvs = before ++ (n, v) :: after /\ forall k w, In (k, w) (before ++ after) -> k <> n.
Proof.
  unfold find_field. split.
  - induction kvs as [|[k w] kvs IH]; simpl; [discriminate|].
    destruct (str_eqb k n) eqn:K.
    + apply str_eqb_spec in K as ->.
      destruct (filter (fun kv => str_eqb (fst kv) n) kvs) as [|x r] eqn:F; [|discriminate].
      intros H. inv H. exists [], kvs. split; auto. simpl. intros k' w' Hin ->.
      assert (In (n, w') (filter (fun kv => str_eqb (fst kv) n) kvs)) as C.
      { apply filter_In. split; auto. apply str_eqb_spec. reflexivity. }
      rewrite F in C. destruct C.
    + intros H. apply IH in H as (b & a & -> & N). exists ((k, w) :: b), a. split; auto.
      simpl. intros k' w' [E|Hin]; [inv E|eauto]. intros ->.
      assert (str_eqb n n = true) by (apply str_eqb_spec; reflexivity). congruence.
  - intros (b & a & -> & N). rewrite filter_app. simpl.
    replace (str_eqb n n) with true by (symmetry; apply str_eqb_spec; reflexivity).
    assert (Z : forall l, (forall k w, In (k, w) l -> k <> n) -> filter (fun kv : str * json => str_eqb (fst kv) n) l = []).
    { induction l as [|[k w] l IH]; simpl; auto. intros Hn.
      destruct (str_eqb k n) eqn:K; [|apply IH; intros; apply (Hn k0 w0); auto].
      apply str_eqb_spec in K. exfalso. eapply Hn; eauto. }
    rewrite !Z; simpl; auto; intros k w Hin; apply (N k w); apply in_or_app; auto.
Qed.

Lemma find_field_in kvs n v : find_field kvs n = Ok (Present v) -> In (n, v) kvs.
Proof. rewrite find_field_present. intros (b & a & -> & _). apply in_or_app. right. left. reflexivity. Qed.

Lemma fields_text names j l v s :
  fields names j = Ok l -> In (Present v) l -> text_in s v -> text_in s j.
Proof.
  destruct j; simpl; try discriminate.
  - destruct (length names <? length l0); [discriminate|]. intros H. inv H.
    intros Hin T. apply in_app_or in Hin as [Hin|Hin].
    + apply in_map_iff in Hin as (w & E & Hin). inv E. econstructor; eauto.
    + apply repeat_spec in Hin. discriminate.
  - intros H Hin T. apply mapM_ok_Forall2 in H. induction H as [|n w names l E F IH]; [contradiction|].
    destruct Hin as [->|Hin]; auto. apply find_field_in in E. eapply text_obj; eauto.
Qed.

Lemma required_text {A} (d : decoder A) v a : required d v = Ok a -> exists j, v = Present j /\ d j = Ok a.
Proof. destruct v; simpl; try discriminate. eauto. Qed.
Lemma d_str_ok j s : d_str j = Ok s -> j = JStr s.
Proof. destruct j; simpl; try discriminate. intros H. inv H. reflexivity. Qed.
Lemma optional_text {A} (d : decoder A) v a :
  optional d v = Ok (Some a) -> exists j, v = Present j /\ d j = Ok a.
Proof.
  destruct v; simpl; try discriminate. intros H. exists j. split; auto.
  destruct j; simpl in H; try discriminate; bind_inv H; inv H; auto.
Qed.
Lemma d_vec_text {A} (d : decoder A) j l a :
  d_vec d j = Ok l -> In a l -> exists js j', j = JArr js /\ In j' js /\ d j' = Ok a.
Proof.
  destruct j; simpl; try discriminate. intros H Hin. apply mapM_ok_Forall2 in H.
  exists l0. induction H as [|x y xs ys E F IH]; [contradiction|].
  destruct Hin as [->|Hin].
  - exists x. simpl. auto.
  - destruct (IH Hin) as (j' & E' & Hj & D). inv E'. exists j'. simpl. auto.
Qed.

(** Inverts the decoding of a structure. *)
Ltac dec_inv H :=
  let E := fresh "F" in let a := fresh "fs" in
  apply bind_ok in H; destruct H as (a & E & H);
  repeat (destruct a as [|? a]; try discriminate H);
  repeat (let x := fresh "v" in let E' := fresh "R" in
          apply bind_ok in H; destruct H as (x & E' & H)).

Ltac field_text F :=
  eapply fields_text; [exact F | simpl; repeat (try (left; reflexivity); right) |].

Lemma req_str_text names j l v s : fields names j = Ok l -> In v l -> required d_str v = Ok s -> text_in s j.
Proof.
  intros F Hin R. apply required_text in R as (w & -> & D). apply d_str_ok in D as ->.
  eapply fields_text; eauto. constructor.
Qed.
Lemma opt_str_text names j l v s : fields names j = Ok l -> In v l -> optional d_str v = Ok (Some s) -> text_in s j.
Proof.
  intros F Hin R. apply optional_text in R as (w & -> & D). apply d_str_ok in D as ->.
  eapply fields_text; eauto. constructor.
Qed.
Lemma req_vec_text names j l v ss s :
  fields names j = Ok l -> In v l -> required (d_vec d_str) v = Ok ss -> In s ss -> text_in s j.
Proof.
  intros F Hin R Hs. apply required_text in R as (w & -> & D).
  destruct (d_vec_text _ _ _ _ D Hs) as (js & j' & -> & Hj & Dj). apply d_str_ok in Dj as ->.
  eapply fields_text; eauto. econstructor; eauto. constructor.
Qed.
Lemma opt_vec_text names j l v ss s :
  fields names j = Ok l -> In v l -> optional (d_vec d_str) v = Ok (Some ss) -> In s ss -> text_in s j.
Proof.
  intros F Hin R Hs. apply optional_text in R as (w & -> & D).
  destruct (d_vec_text _ _ _ _ D Hs) as (js & j' & -> & Hj & Dj). apply d_str_ok in Dj as ->.
  eapply fields_text; eauto. econstructor; eauto. constructor.
Qed.

Ltac in_fields := simpl; tauto.

Lemma d_engine_text o j m : d_engine o j = Ok m ->
  text_in (em_builtin m) j /\ text_in (em_custom m) j /\ forall n, In n (em_parsers m) -> text_in n j.
Proof.
  unfold d_engine. intros H. dec_inv H. inv H. simpl. split; [|split].
  - eapply req_str_text; [exact F| |eassumption]; in_fields.
  - eapply req_str_text; [exact F| |eassumption]; in_fields.
  - intros n Hn. eapply req_vec_text; [exact F| |eassumption|exact Hn]; in_fields.
Qed.

Lemma d_resources_text j m : d_resources j = Ok m ->
  (forall l n, rm_gazetteers m = Some l -> In n l -> text_in n j) /\
  (forall l n, rm_clusters m = Some l -> In n l -> text_in n j) /\
  (forall n, rm_stems m = Some n -> text_in n j) /\
  (forall n, rm_stop_words m = Some n -> text_in n j).
Proof.
  unfold d_resources. intros H. dec_inv H. inv H. simpl. repeat split.
  - intros l n -> Hn. eapply opt_vec_text; [exact F| |eassumption|exact Hn]; in_fields.
  - intros l n -> Hn. eapply opt_vec_text; [exact F| |eassumption|exact Hn]; in_fields.
  - intros n ->. eapply opt_str_text; [exact F| |eassumption]; in_fields.
  - intros n ->. eapply opt_str_text; [exact F| |eassumption]; in_fields.
Qed.

Lemma d_custom_metadata_text j m : d_custom_metadata j = Ok m -> text_in (cu_directory m) j.
Proof.
  unfold d_custom_metadata. intros H. dec_inv H. inv H. simpl.
  eapply req_str_text; [exact F| |eassumption]; in_fields.
Qed.

Lemma d_featurizer_text j m : d_featurizer j = Ok m ->
  text_in (fst m) j /\ forall n, snd m = Some n -> text_in n j.
Proof.
  unfold d_featurizer. intros H. dec_inv H. inv H. simpl. split.
  - eapply req_str_text; [exact F| |eassumption]; in_fields.
  - intros n ->. eapply opt_str_text; [exact F| |eassumption]; in_fields.
Qed.

Lemma d_classifier_text g j m : d_classifier g j = Ok m ->
  forall n, clm_featurizer m = Some n -> text_in n j.
Proof.
  unfold d_classifier. intros H. dec_inv H. inv H. simpl.
  intros n ->. eapply opt_str_text; [exact F| |eassumption]; in_fields.
Qed.

Lemma d_filler_text o j m : d_filler o j = Ok m -> forall n, sm_crf_file m = Some n -> text_in n j.
Proof.
  unfold d_filler. intros H. dec_inv H. inv H. simpl.
  intros n ->. eapply opt_str_text; [exact F| |eassumption]; in_fields.
Qed.

Lemma d_probabilistic_text j m : d_probabilistic j = Ok m -> forall md, In md m -> text_in (snd md) j.
Proof.
  unfold d_probabilistic. intros H md Hin. dec_inv H.
  apply required_text in H as (w & -> & D).
  destruct (d_vec_text _ _ _ _ D Hin) as (js & j' & -> & Hj & Dj).
  eapply fields_text; [exact F|in_fields|]. econstructor; [exact Hj|].
  unfold d_filler_metadata in Dj. dec_inv Dj. inv Dj. simpl.
  eapply req_str_text; [exact F0| |eassumption]; in_fields.
Qed.

(** ** The version *)
Lemma model_version_iff j v :
  d_model_version j = Ok v <-> field_once j $"model_version" (JStr v) \/ j = JArr [JStr v].
Proof.
  unfold d_model_version. split.
  - intros H. dec_inv H. apply required_text in H as (w & -> & D). apply d_str_ok in D as ->.
    destruct j; cbn [fields] in F; try discriminate.
    + right. destruct (length [_] <? length l); [discriminate|]. inv F.
      destruct l as [|a [|b l]]; simpl in *; try discriminate. inv H0. reflexivity.
    + left. cbn [mapM] in F. bind_inv F. inv F. apply find_field_present in E as (b & a' & -> & N).
      exists b, a'. auto.
  - intros [(b & a & -> & N)| ->]; [|reflexivity].
    cbn [fields mapM]. replace (find_field _ _) with (Ok (Present (JStr v))); [reflexivity|].
    symmetry. apply find_field_present. eauto.
Qed.

Section WithLoader.
  Context (x : Ext) (shape : str -> str) (ngrams : list str -> nat -> list str) (mx : Math) (L : Loader)
          (fo : path -> orders) (uo : path -> nat -> HashOrder).
  Notation from_path := (from_path x shape ngrams mx L fo uo).
  Notation engine_file p := (pjoin p $"nlu_engine.json").

  Lemma read_json_ok {A} f p (d : decoder A) a :
    read_json L f p d = Ok a <-> exists j, json_at L f p j /\ d j = Ok a.
  Proof.
    unfold read_json, read_file, json_at. split.
    - intros H. bind_inv H. destruct (f (resolve p)) as [[c|]|]; inv E. bind_inv H.
      destruct (ld_json L a0) as [j|] eqn:E'; inv E. eauto.
    - intros (j & (c & -> & E) & D). cbn [bind]. rewrite E. exact D.
  Qed.

  Lemma read_json_at {A} f p (d : decoder A) j : json_at L f p j -> read_json L f p d = d j.
  Proof. intros (c & E & E'). unfold read_json, read_file. rewrite E. cbn [bind]. rewrite E'. reflexivity. Qed.

  Lemma read_json_none {A} f p (d : decoder A) : (forall j, ~ json_at L f p j) -> read_json L f p d = Err EIo.
  Proof.
    intros N. unfold read_json, read_file. destruct (f (resolve p)) as [[c|]|] eqn:E; auto.
    cbn [bind]. destruct (ld_json L c) as [j|] eqn:E'; auto. exfalso. apply (N j). exists c. auto.
  Qed.

  Lemma other_version f p j v :
    json_at L f (engine_file p) j -> field_once j $"model_version" (JStr v) -> v <> MODEL_VERSION ->
    from_path f p = Err (EWrongModelVersion v MODEL_VERSION).
  Proof.
    intros J V N. unfold M_Load.from_path, load_model, check_model_version.
    rewrite (read_json_at _ _ _ _ J).
    assert (D : d_model_version j = Ok v) by (apply model_version_iff; auto).
    rewrite D. cbn [bind]. destruct (str_eqb v MODEL_VERSION) eqn:E; auto.
    apply str_eqb_spec in E. contradiction.
  Qed.

  Lemma loaded_version f p en : from_path f p = Ok en ->
    exists j, json_at L f (engine_file p) j /\ field_once j $"model_version" (JStr MODEL_VERSION).
  Proof.
    unfold M_Load.from_path, load_model, check_model_version. intros H. bind_inv H. clear H.
    cbv zeta in E. bind_inv E. bind_inv E0. apply read_json_ok in E1 as (j & J & D).
    destruct (str_eqb a1 MODEL_VERSION) eqn:V; [|discriminate]. apply str_eqb_spec in V as ->.
    exists j. split; auto. apply model_version_iff in D as [D| ->]; auto.
    rewrite (read_json_at _ _ _ _ J) in E. unfold d_engine in E. discriminate.
  Qed.

  Lemma find_field_no_panic kvs n : find_field kvs n <> Panic.
  Proof. unfold find_field. destruct (filter _ kvs) as [|? [|? ?]]; discriminate. Qed.

  Lemma unreadable_model f p :
    (forall j v, json_at L f (engine_file p) j -> ~ field_once j $"model_version" (JStr v)) ->
    exists e, from_path f p = Err e.
  Proof.
    intros N. destruct (from_path f p) as [en|e|] eqn:E; eauto.
    - apply loaded_version in E as (j & J & F). exfalso. eapply N; eauto.
    - exfalso. revert E. unfold M_Load.from_path, load_model, check_model_version. cbv zeta.
      destruct (f (resolve (engine_file p))) as [[c|]|] eqn:R;
        [|unfold read_json, read_file; rewrite R; discriminate..].
      destruct (ld_json L c) as [j|] eqn:E';
        [|unfold read_json, read_file; rewrite R; cbn [bind]; rewrite E'; discriminate].
      assert (J : json_at L f (engine_file p) j) by (exists c; auto).
      rewrite !(read_json_at _ _ _ _ J).
      destruct (d_model_version j) as [v|e|] eqn:D.
      + apply model_version_iff in D as [D| ->]; [exfalso; eapply N; eauto|].
        cbn [bind]. destruct (str_eqb v MODEL_VERSION); discriminate.
      + discriminate.
      + exfalso. revert D. unfold d_model_version, fields.
        destruct j; try discriminate.
        * destruct (length [_] <? length l); [discriminate|]. cbn [bind].
          destruct l as [|a [|b l]]; simpl; try discriminate. destruct a; discriminate.
        * cbn [mapM]. pose proof (find_field_no_panic l $"model_version") as NP.
          destruct (find_field l $"model_version") as [v| |]; cbn [bind]; try discriminate; [|congruence].
          destruct v; simpl; try discriminate. destruct j; discriminate.
  Qed.

  (** ** What is loaded honours the filters *)
  Lemma built_parser f p u res ip :
    classifiers_with_null L f ->
    build_intent_parser x shape ngrams mx L fo uo f p u res = Ok ip -> library_parser ip.
  Proof.
    intros C. destruct u; cbn [build_intent_parser]; try discriminate; intros H; bind_inv H; inv H.
    - constructor.
    - constructor.
    - unfold load_probabilistic in E. bind_inv E. bind_inv E. bind_inv E. inv E.
      unfold build_intent_classifier in E1. bind_inv E1. destruct a; try discriminate.
      bind_inv E1. inv E1. constructor. unfold load_classifier in E3. bind_inv E3.
      apply read_json_ok in E1 as (j & J & D). destruct (C _ _ _ J D) as [N I].
      bind_inv E3. bind_inv E3. inv E3. split; assumption.
  Qed.

  Lemma loaded_parsers f p en :
    classifiers_with_null L f -> from_path f p = Ok en ->
    forall ip, In ip (en_parsers en) -> library_parser ip.
  Proof.
    intros C H. unfold M_Load.from_path in H. bind_inv H. bind_inv H. bind_inv H. inv H.
    cbn [en_parsers]. unfold load_intent_parsers in E1. apply mapM_ok_Forall2 in E1.
    intros ip Hin. induction E1 as [|n y ns ys B F IH]; [contradiction|].
    destruct Hin as [->|Hin]; auto. cbv zeta in B. bind_inv B. eapply built_parser; eauto.
  Qed.

  Lemma loaded_filters o1 o2 f p en input w b n salts res :
    classifiers_with_null L f -> from_path f p = Ok en -> (w <> None \/ b <> None) ->
    parse_with_alternatives x o1 o2 en input w b n salts = Ok res ->
    (forall i, ir_name (ps_intent res) = Some i -> known en i /\ allowed w b i) /\
    (forall a i, In a (ps_alternatives res) -> ir_name (al_intent a) = Some i ->
                 known en i /\ allowed w b i).
  Proof. intros C H. apply library_filters. eapply loaded_parsers; eauto. Qed.

  (** ** Only what is below the directory is looked at *)
  Definition under (p q : path) : Prop := exists c, q = p ++ map CName c.

  Lemma plain_names s : plain s -> exists c, components s = map CName c.
  Proof.
    intros [_ N]. revert N. induction (components s) as [|c l IH]; intros N.
    - exists []. reflexivity.
    - destruct c as [n|]; [|exfalso; apply N; left; reflexivity].
      destruct IH as (c & ->); [intros I; apply N; right; exact I|]. exists (n :: c). reflexivity.
  Qed.
  Lemma under_refl p : under p p.
  Proof. exists []. symmetry. apply app_nil_r. Qed.
  Lemma under_join p q s : under p q -> plain s -> under p (pjoin q s).
  Proof.
    intros (c & ->) P. destruct (plain_names s P) as (c' & E). destruct P as [A _].
    unfold pjoin. rewrite A, E. exists (c ++ c'). rewrite map_app, app_assoc. reflexivity.
  Qed.
  Lemma with_extension_app p q ext : q <> [] -> with_extension (p ++ q) ext = p ++ with_extension q ext.
  Proof.
    intros N. induction p as [|c p IH]; auto. simpl app. simpl.
    destruct c; [|rewrite IH; reflexivity].
    destruct (p ++ q) eqn:E; [|rewrite <- IH; reflexivity].
    destruct p; [simpl in E; contradiction|discriminate].
  Qed.
  Lemma with_extension_names c ext : exists c', with_extension (map CName c) ext = map CName c'.
  Proof.
    induction c as [|n c (c' & IH)]; [exists []; reflexivity|].
    destruct c as [|n' c]; [exists [file_stem n ++ [dot] ++ ext]; reflexivity|].
    exists (n :: c'). simpl map in *. cbn [with_extension]. cbn [with_extension] in IH. rewrite IH. reflexivity.
  Qed.
  Lemma under_file p q n s :
    under p q -> plain s -> plain n -> components n <> [] ->
    under p (with_extension (pjoin (pjoin q n) s) $"txt").
  Proof.
    intros (c & ->) P Pn Nn. destruct (plain_names s P) as (c' & E). destruct (plain_names n Pn) as (c2 & E2).
    destruct P as [A _], Pn as [A2 _].
    unfold pjoin. rewrite A, A2, E, E2. rewrite E2 in Nn. rewrite <- !app_assoc, <- !map_app.
    rewrite with_extension_app.
    - destruct (with_extension_names (c ++ c2 ++ c') $"txt") as (c3 & ->). exists c3. reflexivity.
    - destruct c; [|discriminate]. simpl. rewrite map_app. destruct (map CName c2); [contradiction|discriminate].
  Qed.

  Lemma resolve_under p c : resolve (p ++ map CName c) = resolve p ++ c.
  Proof.
    unfold resolve. rewrite fold_left_app. generalize (fold_left resolve_comp p []).
    induction c as [|n c IH]; intros l; simpl; [symmetry; apply app_nil_r|].
    rewrite IH, <- app_assoc. reflexivity.
  Qed.

  Lemma bind_cong {A B} (m m' : outcome A) (k k' : A -> outcome B) :
    m = m' -> (forall a, m = Ok a -> k a = k' a) -> bind m k = bind m' k'.
  Proof. intros <- H. destruct m; cbn [bind]; auto. Qed.

  Section Local.
    Context (f f' : fs) (p : path).
    Hypothesis SB : same_below (resolve p) f f'.
    Hypothesis LL : loaders_local L.
    Hypothesis PL : forall names j s, json_at L f (p ++ map CName names) j -> text_in s j -> plain s.
    Hypothesis PLang : forall l, plain (ld_lang_name L l).

    Lemma same_under q : under p q -> same_below (resolve q) f f'.
    Proof. intros (c & ->) r. rewrite resolve_under, <- app_assoc. apply SB. Qed.
    Lemma read_file_local q : under p q -> read_file f q = read_file f' q.
    Proof. intros (c & ->). unfold read_file. rewrite resolve_under, SB. reflexivity. Qed.
    Lemma read_json_local {A} q (d : decoder A) : under p q -> read_json L f q d = read_json L f' q d.
    Proof. intros U. unfold read_json. rewrite (read_file_local q U). reflexivity. Qed.
    Lemma text_plain {A} q (d : decoder A) m s :
      under p q -> read_json L f q d = Ok m -> (forall j, d j = Ok m -> text_in s j) -> plain s.
    Proof.
      intros (c & ->) R T. apply read_json_ok in R as (j & J & D). eapply PL; eauto.
    Qed.

    Ltac const_plain := split; [reflexivity|vm_compute; intuition discriminate].
    Ltac u := repeat (apply under_join; [|solve [const_plain | assumption]]); try assumption; try apply under_refl.

    Lemma load_named_local {A} (rd : path -> str -> outcome A) q n l :
      under p q -> plain n -> components n <> [] -> (forall m s, l = Some m -> In s m -> plain s) ->
      load_named rd f (pjoin q n) l = load_named rd f' (pjoin q n) l.
    Proof.
      intros U Pn Nn P. unfold load_named. destruct l as [l|]; auto.
      specialize (P l). generalize (Ok [] : outcome (list (str * A))).
      assert (P' : forall s, In s l -> plain s) by (intros; eapply P; eauto). clear P.
      induction l as [|s l IH]; intros acc; auto. cbn [fold_left].
      replace (let* m := acc in _) with
        (let* m := acc in
         let* c := read_file f' (with_extension (pjoin (pjoin q n) s) $"txt") in
         let* a := rd (with_extension (pjoin (pjoin q n) s) $"txt") c in
         Ok (hinsert str_eqb s a m)).
      - apply IH. intros; apply P'; right; assumption.
      - apply bind_cong; auto. intros. apply bind_cong; auto.
        symmetry. apply read_file_local. apply under_file; auto. apply P'. left. reflexivity.
    Qed.

    Lemma load_custom_local q : under p q -> load_custom x L f q = load_custom x L f' q.
    Proof.
      intros U. unfold load_custom. apply bind_cong; [apply read_json_local; u|]. intros m M.
      apply bind_cong; auto. intros l _.
      assert (plain (cu_directory m)).
      { eapply (text_plain (pjoin q $"metadata.json")); [u|exact M|]. intros j. apply d_custom_metadata_text. }
      destruct (LL f f' (pjoin q (cu_directory m))) as (_ & -> & _); auto.
      apply same_under. u.
    Qed.

    Lemma load_builtin_local q : under p q -> load_builtin x L f q = load_builtin x L f' q.
    Proof.
      intros U. unfold load_builtin. destruct (LL f f' q) as (-> & _ & _); auto. apply same_under; auto.
    Qed.

    Lemma resources_local dir b c :
      under p dir -> dir <> p -> under p b -> under p c ->
      load_shared_resources x L uo f dir b c = load_shared_resources x L uo f' dir b c.
    Proof.
      intros U ND Ub Uc. unfold load_shared_resources. apply bind_cong; [apply read_json_local; u|].
      intros m M.
      assert (T : forall s, (forall j, d_resources j = Ok m -> text_in s j) -> plain s).
      { intros s. apply (text_plain (pjoin dir $"metadata.json") d_resources m s); [u|exact M]. }
      apply bind_cong.
      { unfold load_stemmer. destruct (rm_stems m) as [n|] eqn:E; auto.
        apply bind_cong; auto. apply read_file_local. apply under_file; auto.
        - apply T. intros j D. apply d_resources_text in D as (_ & _ & D & _). auto.
        - const_plain.
        - discriminate. }
      intros st _. apply bind_cong.
      { apply load_named_local; auto; [const_plain|discriminate|].
        intros l s E Hs. apply T. intros j D. apply d_resources_text in D as (D & _). eauto. }
      intros gs _. apply bind_cong.
      { apply load_named_local; auto; [const_plain|discriminate|].
        intros l s E Hs. apply T. intros j D. apply d_resources_text in D as (_ & D & _). eauto. }
      intros cs _. apply bind_cong.
      { unfold load_stop_words. destruct (rm_stop_words m) as [n|] eqn:E; auto.
        apply bind_cong; auto. apply read_file_local.
        assert (plain n) as Pn by (apply T; intros j D; apply d_resources_text in D as (_ & _ & _ & D); auto).
        destruct U as (cc & ->). destruct (plain_names n Pn) as (c' & En). destruct Pn as [A _].
        unfold pjoin. rewrite A, En, <- app_assoc, <- map_app, with_extension_app.
        - destruct (with_extension_names (cc ++ c') $"txt") as (c3 & ->). exists c3. reflexivity.
        - destruct cc; [|discriminate]. exfalso. apply ND. apply app_nil_r. }
      intros sw _. rewrite load_builtin_local, load_custom_local by assumption. reflexivity.
    Qed.

    Lemma resources_of_local m :
      read_json L f (engine_file p) (d_engine (fo (engine_file p))) = Ok m ->
      resources_of x L uo f p m = resources_of x L uo f' p m.
    Proof.
      intros M. unfold resources_of. apply bind_cong; auto. intros l _.
      assert (T : forall s, (forall j, d_engine (fo (engine_file p)) j = Ok m -> text_in s j) -> plain s).
      { intros s. apply (text_plain (engine_file p) _ m s); [u|exact M]. }
      pose proof (PLang l).
      apply resources_local.
      - u.
      - unfold pjoin. destruct (is_absolute (ld_lang_name L l)) eqn:A; [destruct H; congruence|].
        change (is_absolute $"resources") with false. cbv iota. rewrite <- app_assoc.
        intros E. apply (f_equal (@length _)) in E. rewrite !app_length in E. simpl in E. lia.
      - assert (plain (em_builtin m)) by (apply T; intros j D; apply d_engine_text in D; tauto). u.
      - assert (plain (em_custom m)) by (apply T; intros j D; apply d_engine_text in D; tauto). u.
    Qed.

    Lemma featurizer_local q res : under p q ->
      load_featurizer x L fo f q res = load_featurizer x L fo f' q res.
    Proof.
      intros U. unfold load_featurizer. apply bind_cong; [apply read_json_local; u|]. intros m M.
      assert (T : forall s, (forall j, d_featurizer j = Ok m -> text_in s j) -> plain s).
      { intros s. apply (text_plain (pjoin q $"featurizer.json") _ m s); [u|exact M]. }
      apply bind_cong.
      - assert (plain (fst m)) by (apply T; intros j D; apply d_featurizer_text in D; tauto).
        unfold load_tfidf. cbv zeta. rewrite read_json_local by u. reflexivity.
      - intros t _. apply bind_cong; auto. destruct (snd m) as [n|] eqn:E; auto.
        assert (plain n) by (apply T; intros j D; apply d_featurizer_text in D as [_ D]; auto).
        unfold load_cooc. cbv zeta. rewrite read_json_local by u. reflexivity.
    Qed.

    Lemma classifier_local q res : under p q ->
      build_intent_classifier x ngrams mx L fo uo f q res = build_intent_classifier x ngrams mx L fo uo f' q res.
    Proof.
      intros U. unfold build_intent_classifier. apply bind_cong; [apply read_json_local; u|].
      intros un _. destruct un; auto. apply bind_cong; auto.
      unfold load_classifier. apply bind_cong; [apply read_json_local; u|]. intros m M.
      apply bind_cong; auto. destruct (clm_featurizer m) as [n|] eqn:E; auto.
      assert (plain n).
      { eapply (text_plain (pjoin q $"intent_classifier.json")); [u|exact M|].
        intros j D. eapply d_classifier_text in D; eauto. }
      rewrite featurizer_local by u. reflexivity.
    Qed.

    Lemma filler_local q res : under p q ->
      build_slot_filler x shape L fo f q res = build_slot_filler x shape L fo f' q res.
    Proof.
      intros U. unfold build_slot_filler. apply bind_cong; [apply read_json_local; u|].
      intros un _. destruct un; auto. apply bind_cong; auto.
      unfold load_crf. cbv zeta. apply bind_cong; [apply read_json_local; u|]. intros m M.
      unfold crf_new. apply bind_cong; auto. intros sc _. apply bind_cong; auto.
      destruct (sm_crf_file m) as [n|] eqn:E; auto.
      assert (plain n).
      { eapply (text_plain (pjoin q $"slot_filler.json")); [u|exact M|].
        intros j D. eapply d_filler_text in D; eauto. }
      destruct (LL f f' (pjoin q n)) as (_ & _ & ->); auto. apply same_under. u.
    Qed.

    Lemma parser_local q un res : under p q ->
      build_intent_parser x shape ngrams mx L fo uo f q un res =
      build_intent_parser x shape ngrams mx L fo uo f' q un res.
    Proof.
      intros U. destruct un; cbn [build_intent_parser]; auto; apply bind_cong; auto.
      - unfold load_deterministic. cbv zeta. rewrite read_json_local by u. reflexivity.
      - unfold load_lookup. cbv zeta. rewrite read_json_local by u. reflexivity.
      - unfold load_probabilistic. apply bind_cong; [apply read_json_local; u|]. intros m M.
        apply bind_cong; [apply classifier_local; u|]. intros c _. apply bind_cong; auto.
        apply mapM_ext. intros md Hmd. apply bind_cong; auto. apply filler_local.
        assert (plain (snd md)); [|u].
        eapply (text_plain (pjoin q $"intent_parser.json")); [u|exact M|].
        intros j D. eapply d_probabilistic_text; eauto.
    Qed.

    Lemma from_path_local : from_path f p = from_path f' p.
    Proof.
      unfold M_Load.from_path. apply bind_cong.
      { unfold load_model, check_model_version. cbv zeta. rewrite !read_json_local by u. reflexivity. }
      intros m M.
      assert (M' : read_json L f (engine_file p) (d_engine (fo (engine_file p))) = Ok m).
      { unfold load_model in M. cbv zeta in M. bind_inv M. exact M. }
      apply bind_cong; [apply resources_of_local; exact M'|]. intros res _.
      apply bind_cong; auto. unfold load_intent_parsers. apply mapM_ext. intros n Hn. cbv zeta.
      assert (plain n).
      { eapply (text_plain (engine_file p)); [u|exact M'|]. intros j D.
        eapply d_engine_text; eauto. }
      rewrite read_json_local by u. apply bind_cong; auto. intros un _. apply parser_local. u.
    Qed.
  End Local.
End WithLoader.
