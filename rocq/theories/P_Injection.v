(** Lemmas about complete and interrupted injections. *)
From Coq Require Import String List NArith ZArith Bool Arith Lia Permutation.
From Verif Require Import Base F32 M_Types M_Engine M_Feat M_Prob M_Features M_Res M_Fs M_Json M_Load M_Inject
  S_Base S_Load S_Inject P_Base P_Load P_Inject P_Effects.
Import ListNotations.
Local Open Scope nat_scope.

Lemma mapM_total {A B} (g : A -> outcome B) l : (forall a, In a l -> exists b, g a = Ok b) -> exists r, mapM g l = Ok r.
Proof.
  induction l as [|a l IH]; intros H; [exists []; reflexivity|].
  destruct (H a) as (b & E); [left; reflexivity|]. destruct IH as (r & E'); [intros; apply H; right; assumption|].
  exists (b :: r). cbn [mapM]. rewrite E. cbn [bind]. rewrite E'. reflexivity.
Qed.

Lemma stem_total x l u (stemmer : option (str -> str)) values : u = WithoutStems \/ (exists st, stemmer = Some st) ->
  exists vs, stem_entity_value x l u stemmer (normalize_entity_value x values) = Ok vs.
Proof.
  unfold stem_entity_value. intros [->|(st & ->)]; [simpl; eauto|]. destruct u; try rewrite stems_ok; simpl; eauto.
Qed.

Section WithLoader.
  Context (x : Ext) (L : Loader) (fo : path -> orders) (uo : path -> nat -> HashOrder) (G : Gaz).
  Notation prepare := (prepare x L fo uo G).
  Notation inject := (inject x L fo uo G).
  Notation metadata := (metadata L fo).
  Notation resources_used := (resources_used x L fo uo).

  (** ** Before the first change *)
  Lemma bad_metadata o1 o2 o3 p adds b r f :
    (forall M, ~ metadata f p M) -> exists e, inject o1 o2 o3 (request p adds b r) f = ([], Err e).
  Proof.
    intros N. destruct (prepare_bad_metadata x L fo uo G o1 o2 p adds b r f N) as (e & E).
    exists e. unfold M_Inject.inject. rewrite E. reflexivity.
  Qed.

  Lemma not_injectable o1 o2 o3 p adds b r f M e :
    metadata f p M -> requested adds e -> (forall d, ~ stored G p M e d) ->
    inject o1 o2 o3 (request p adds b r) f = ([], Err EInjectionUnknown).
  Proof.
    intros HM R N. unfold M_Inject.inject. rewrite (prepare_not_stored x L fo uo G o1 o2 p adds b r f M); eauto.
  Qed.

  Lemma no_values o1 o2 o3 p adds b r f M e :
    metadata f p M -> requested adds e ->
    (forall res vs, resources_used f p r res -> ~ handed x M (rs_stemmer res) e (values_of adds e) vs) ->
    fst (inject o1 o2 o3 (request p adds b r) f) = [] /\ snd (inject o1 o2 o3 (request p adds b r) f) <> Ok tt.
  Proof.
    intros HM R N. unfold M_Inject.inject.
    destruct (prepare o1 o2 (request p adds b r) f) as [[dirs values]|er|] eqn:E; [|split; [reflexivity|discriminate]..].
    destruct (prepare_ok _ _ _ _ _ _ _ _ _ _ _ _ _ _ E) as (M' & res & HM' & U & _ & _ & _ & V & X).
    rewrite (metadata_unique _ _ _ _ _ _ HM' HM) in *. destruct (X e R) as (vs & I). apply V in I as [_ H].
    exfalso. eapply N; eauto.
  Qed.

  Lemma changes_imply_valid o1 o2 o3 p adds b r f :
    fst (inject o1 o2 o3 (request p adds b r) f) <> [] ->
    exists M res, metadata f p M /\ resources_used f p r res /\
      forall e, requested adds e -> (exists d, stored G p M e d) /\
        exists vs, handed x M (rs_stemmer res) e (values_of adds e) vs.
  Proof.
    unfold M_Inject.inject.
    destruct (prepare o1 o2 (request p adds b r) f) as [[dirs values]|er|] eqn:E; [|contradiction..].
    intros _. destruct (prepare_ok _ _ _ _ _ _ _ _ _ _ _ _ _ _ E) as (M & res & HM & U & D & S & ND & V & X).
    exists M, res. split; auto. split; auto. intros e R. split; auto. destruct (X e R) as (vs & I). exists vs. apply V. exact I.
  Qed.

  (** ** Effects *)
  Lemma mem_keys (l : list (str * list GValue)) e : In e (hkeys l) <-> exists vs, In (e, vs) l.
  Proof.
    unfold hkeys. rewrite in_map_iff. split.
    - intros ([e' vs] & <- & I). eauto.
    - intros (vs & I). exists (e, vs). auto.
  Qed.

  (** The state of an injection that reached the changes. *)
  Lemma started o1 o2 p adds b r f M dirs values o3 :
    metadata f p M -> separate G p M adds -> prepare o1 o2 (request p adds b r) f = Ok (dirs, values) ->
    exists res, resources_used f p r res /\ sep dirs (reorder o3 values) /\
      (forall e d, hget str_eqb e dirs = Some d <-> requested adds e /\ stored G p M e d) /\
      (forall e, requested adds e <-> In e (hkeys (reorder o3 values))) /\
      (forall e, requested adds e -> exists d, stored G p M e d) /\
      (forall f f' e, new_parser G dirs b f f' (reorder o3 values) e ->
         exists d, stored G p M e d /\ updated G x M (rs_stemmer res) b adds f f' e d).
  Proof.
    intros HM S E. destruct (prepare_ok _ _ _ _ _ _ _ _ _ _ _ _ _ _ E) as (M' & res & HM' & U & D & St & ND & V & X).
    rewrite (metadata_unique _ _ _ _ _ _ HM' HM) in *. clear M' HM'.
    assert (K : forall e, requested adds e <-> In e (hkeys (reorder o3 values))).
    { intros e. rewrite mem_keys. split.
      - intros R. destruct (X e R) as (vs & I). exists vs. apply reorder_In. exact I.
      - intros (vs & I). apply (proj1 (reorder_In _ _ _)) in I. apply V in I. tauto. }
    exists res. split; auto. split; [|split; [|split; [|split]]]; auto.
    - split.
      + unfold hkeys. eapply Permutation_NoDup; [apply Permutation_map; apply reorder_perm|]. exact ND.
      + intros e e' d d' I I' N Hd Hd'. apply D in Hd as [R Sd], Hd' as [R' Sd']. exact (S e e' d d' R R' N Sd Sd').
    - intros f0 f' e (d & vs & g & g' & Hd & I & A & B & C). apply D in Hd as [R Sd]. exists d. split; auto.
      apply (proj1 (reorder_In _ _ _)) in I. apply V in I as [_ H]. exists g, vs, g'. auto.
  Qed.

  Lemma stored_unique p M e d d' : stored G p M e d -> stored G p M e d' -> d = d'.
  Proof. intros A B. apply entity_dir_iff in A, B. congruence. Qed.

  Lemma injected o1 o2 o3 p adds b r f M t :
    gaz_ok G -> metadata f p M -> separate G p M adds ->
    inject o1 o2 o3 (request p adds b r) f = (t, Ok tt) ->
    exists res, resources_used f p r res /\
    forall e, requested adds e ->
      exists d, stored G p M e d /\ updated G x M (rs_stemmer res) b adds f (apply_ops f t) e d.
  Proof.
    intros GO HM S H. unfold M_Inject.inject in H.
    destruct (prepare o1 o2 (request p adds b r) f) as [[dirs values]|er|] eqn:E; [|discriminate..].
    rewrite request_vanilla in H.
    destruct (started _ _ _ _ _ _ _ _ _ _ o3 HM S E) as (res & U & Sp & D & K & _ & N).
    exists res. split; auto. intros e R. apply N. eapply all_ok; eauto. apply K. exact R.
  Qed.

  Lemma rest_unchanged o1 o2 o3 p adds b r f M t1 t2 q :
    gaz_ok G -> metadata f p M ->
    fst (inject o1 o2 o3 (request p adds b r) f) = t1 ++ t2 ->
    (forall e d, requested adds e -> stored G p M e d -> ~ at_or_below (resolve d) q) ->
    apply_ops f t1 q = f q.
  Proof.
    intros GO HM H N. unfold M_Inject.inject in H.
    destruct (prepare o1 o2 (request p adds b r) f) as [[dirs values]|er|] eqn:E;
      [|destruct t1; [reflexivity|discriminate]..].
    destruct (prepare_ok _ _ _ _ _ _ _ _ _ _ _ _ _ _ E) as (M' & res & HM' & U & D & _).
    rewrite (metadata_unique _ _ _ _ _ _ HM' HM) in *.
    eapply (all_within G GO); [|exact H]. intros e d _ Hd. apply D in Hd as [R Sd]. eauto.
  Qed.

  Lemma others_unchanged o1 o2 o3 p adds b r f M t1 t2 d :
    gaz_ok G -> metadata f p M ->
    fst (inject o1 o2 o3 (request p adds b r) f) = t1 ++ t2 ->
    (forall e d', requested adds e -> stored G p M e d' -> apart (resolve d') (resolve d)) ->
    same_below (resolve d) f (apply_ops f t1) /\ gz_load G (apply_ops f t1) d = gz_load G f d.
  Proof.
    intros GO HM H A.
    assert (SB : same_below (resolve d) f (apply_ops f t1)).
    { intros q. symmetry. eapply rest_unchanged; eauto. intros e d' R Sd C.
      destruct (A e d' R Sd) as [X Y].
      destruct (prefixes (resolve d') (resolve d) (resolve d ++ q) C) as [P|P]; [exists q; reflexivity|exact (X P)|exact (Y P)]. }
    split; auto. symmetry. apply (load_local G GO). exact SB.
  Qed.

  Lemma handed_unique (p : path) M st e vals vs vs' : handed x M st e vals vs -> handed x M st e vals vs' -> vs = vs'.
  Proof. intros A B. apply (handed_iff x p) in A, B. congruence. Qed.

  Lemma hash_order o1 o2 o3 o1' o2' o3' p adds b r f M t t' e d :
    gaz_ok G -> metadata f p M -> separate G p M adds ->
    inject o1 o2 o3 (request p adds b r) f = (t, Ok tt) ->
    inject o1' o2' o3' (request p adds b r) f = (t', Ok tt) ->
    requested adds e -> stored G p M e d ->
    gz_load G (apply_ops f t) d = gz_load G (apply_ops f t') d.
  Proof.
    intros GO HM S H H' R Sd.
    destruct (injected _ _ _ _ _ _ _ _ _ _ GO HM S H) as (res & U & A).
    destruct (injected _ _ _ _ _ _ _ _ _ _ GO HM S H') as (res' & U' & A').
    assert (res' = res) as ->.
    { unfold S_Inject.resources_used in *. destruct r; congruence. }
    destruct (A e R) as (d1 & S1 & (g & vs & g' & L1 & H1 & I1 & F1)).
    destruct (A' e R) as (d2 & S2 & (g2 & vs2 & g2' & L2 & H2 & I2 & F2)).
    rewrite (stored_unique _ _ _ _ _ S1 Sd) in *. rewrite (stored_unique _ _ _ _ _ S2 Sd) in *.
    rewrite (handed_unique p _ _ _ _ _ _ H2 H1) in *. congruence.
  Qed.

  Lemma crash o1 o2 o3 p adds b r f M t1 t2 :
    gaz_ok G -> metadata f p M -> separate G p M adds ->
    fst (inject o1 o2 o3 (request p adds b r) f) = t1 ++ t2 ->
    exists e0, forall e d, requested adds e -> e <> e0 -> stored G p M e d ->
      same_below (resolve d) f (apply_ops f t1) \/
      exists res, resources_used f p r res /\ updated G x M (rs_stemmer res) b adds f (apply_ops f t1) e d.
  Proof.
    intros GO HM S H. unfold M_Inject.inject in H.
    destruct (prepare o1 o2 (request p adds b r) f) as [[dirs values]|er|] eqn:E;
      [|destruct t1; [exists []; intros; left; apply same_below_refl|discriminate]..].
    rewrite request_vanilla in H.
    destruct (started _ _ _ _ _ _ _ _ _ _ o3 HM S E) as (res & U & Sp & D & K & _ & N).
    destruct (all_crash G GO dirs b _ f t1 t2 Sp H) as (e0 & C). exists e0. intros e d R Ne Sd.
    destruct (C e d) as [O|P]; auto.
    - apply K. exact R.
    - apply D. auto.
    - right. exists res. split; auto. destruct (N _ _ _ P) as (d' & S' & Up).
      rewrite (stored_unique _ _ _ _ _ Sd S'). exact Up.
  Qed.

  Lemma missing_reachable o1 o2 o3 p adds b r f M t e d :
    gaz_ok G -> metadata f p M -> separate G p M adds ->
    inject o1 o2 o3 (request p adds b r) f = (t, Ok tt) ->
    requested adds e -> stored G p M e d ->
    exists t1 t2, t = t1 ++ t2 /\ gone (apply_ops f t1) (resolve d).
  Proof.
    intros GO HM S H R Sd. unfold M_Inject.inject in H.
    destruct (prepare o1 o2 (request p adds b r) f) as [[dirs values]|er|] eqn:E; [|discriminate..].
    rewrite request_vanilla in H.
    destruct (started _ _ _ _ _ _ _ _ _ _ o3 HM S E) as (res & U & Sp & D & K & _ & N).
    eapply all_gone; eauto; [apply K; exact R|apply D; auto].
  Qed.

  (** The metadata only depend on their files. *)
  Lemma metadata_same f f' p M :
    (forall q, In q (meta_files p M) -> f' (resolve q) = f (resolve q)) -> metadata f p M -> metadata f' p M.
  Proof.
    intros S (D1 & K & D2 & D3 & D4 & D5).
    assert (T : forall A (d : decoder A) q a, In q (meta_files p M) -> decodes L f q d a -> decodes L f' q d a).
    { intros A d q a I (j & (c & F & J) & D). exists j. split; auto. exists c. split; auto. rewrite (S q I). exact F. }
    unfold S_Inject.metadata. split; [|split; [|split; [|split; [|split]]]]; auto.
    - apply T; auto. left. reflexivity.
    - apply T; auto. right. left. reflexivity.
    - intros name ps E. apply T; eauto. unfold meta_files. rewrite E. apply in_or_app. right. left. reflexivity.
    - apply T; auto. right. right. left. reflexivity.
    - apply T; auto. right. right. right. left. reflexivity.
  Qed.

  Lemma kept_metadata o1 o2 o3 p adds b r f M t1 t2 :
    gaz_ok G -> metadata f p M ->
    (forall e d q, requested adds e -> stored G p M e d -> In q (meta_files p M) -> ~ at_or_below (resolve d) (resolve q)) ->
    fst (inject o1 o2 o3 (request p adds b r) f) = t1 ++ t2 ->
    metadata (apply_ops f t1) p M.
  Proof.
    intros GO HM O H. eapply metadata_same; [|exact HM]. intros q I.
    eapply rest_unchanged; eauto.
  Qed.

  (** A missing directory is never repaired. *)
  Lemma no_repair o1 o2 o3 p adds b r f M e d :
    gaz_ok G -> metadata f p M -> separate G p M adds -> requested adds e -> stored G p M e d -> gone f (resolve d) ->
    snd (inject o1 o2 o3 (request p adds b r) f) <> Ok tt.
  Proof.
    intros GO HM S R Sd Hg H. unfold M_Inject.inject in H.
    destruct (prepare o1 o2 (request p adds b r) f) as [[dirs values]|er|] eqn:E; [|discriminate..].
    rewrite request_vanilla in H.
    destruct (started _ _ _ _ _ _ _ _ _ _ o3 HM S E) as (res & U & Sp & D & K & _ & N).
    destruct (inject_all G b f dirs (reorder o3 values)) as [t r'] eqn:EA. simpl in H. subst r'.
    eapply (all_missing G GO); eauto; [apply K; exact R|apply D; auto].
  Qed.

  Lemma crash_no_retry o1 o2 o3 p adds b r f M t e d :
    gaz_ok G -> metadata f p M -> separate G p M adds ->
    (forall e d q, requested adds e -> stored G p M e d -> In q (meta_files p M) -> ~ at_or_below (resolve d) (resolve q)) ->
    inject o1 o2 o3 (request p adds b r) f = (t, Ok tt) ->
    requested adds e -> stored G p M e d ->
    exists t1 t2, t = t1 ++ t2 /\
      (exists er, gz_load G (apply_ops f t1) d = Err er) /\
      forall p1 p2 p3 adds' b' r', requested adds' e -> separate G p M adds' ->
        snd (inject p1 p2 p3 (request p adds' b' r') (apply_ops f t1)) <> Ok tt.
  Proof.
    intros GO HM S O H R Sd. destruct (missing_reachable _ _ _ _ _ _ _ _ _ _ _ _ GO HM S H R Sd) as (t1 & t2 & E & Hg).
    exists t1, t2. split; auto. split; [apply (load_missing G GO); exact Hg|].
    intros p1 p2 p3 adds' b' r' R' S'. eapply no_repair; eauto.
    eapply kept_metadata; eauto. rewrite H. exact E.
  Qed.

  Section Engine.
    Context (shape : str -> str) (ngrams : list str -> nat -> list str) (mx : Math).
    Lemma lost_engine f p M e d en :
      gazetteer_needed L -> metadata f p M -> is_custom M e -> stored G p M e d -> gone f (resolve d) ->
      from_path x shape ngrams mx L fo uo f p <> Ok en.
    Proof.
      intros GN (D1 & K & D2 & D3 & D4 & D5) C Sd Hg H.
      destruct Sd as [(_ & name & (pre & post & Ep & _) & ->)|(N & _)]; [|contradiction].
      destruct (GN f (custom_gazetteers p M) (me_custom_parsers M) e name) as (er & Eg); auto.
      { rewrite Ep. apply in_or_app. right. left. reflexivity. }
      unfold M_Load.from_path in H. bind_inv H. unfold load_model in E. cbv zeta in E. bind_inv E.
      apply read_json_ok in D1. assert (a = me_model M) as -> by congruence.
      bind_inv H. unfold resources_of in E1. bind_inv E1. unfold load_shared_resources in E1.
      do 6 bind_inv E1. bind_inv E1. unfold load_custom in E9. bind_inv E9. bind_inv E9. bind_inv E9.
      change (pjoin p (em_custom (me_model M))) with (custom_dir p M) in *.
      apply read_json_ok in D4. rewrite D4 in E10. injection E10 as <-.
      fold (custom_gazetteers p M) in E12. congruence.
    Qed.

    Lemma crash_lost_engine o1 o2 o3 p adds b r f M t e d :
      gaz_ok G -> gazetteer_needed L -> metadata f p M -> separate G p M adds ->
      (forall e d q, requested adds e -> stored G p M e d -> In q (meta_files p M) -> ~ at_or_below (resolve d) (resolve q)) ->
      inject o1 o2 o3 (request p adds b r) f = (t, Ok tt) ->
      requested adds e -> is_custom M e -> stored G p M e d ->
      exists t1 t2, t = t1 ++ t2 /\ forall en, from_path x shape ngrams mx L fo uo (apply_ops f t1) p <> Ok en.
    Proof.
      intros GO GN HM S O H R C Sd. destruct (missing_reachable _ _ _ _ _ _ _ _ _ _ _ _ GO HM S H R Sd) as (t1 & t2 & E & Hg).
      exists t1, t2. split; auto. intros en. eapply lost_engine; eauto. eapply kept_metadata; eauto. rewrite H. exact E.
    Qed.
  End Engine.

  (** ** Success *)
  Lemma succeeds o1 o2 o3 p adds b r f M res :
    gaz_ok G -> metadata f p M -> separate G p M adds -> resources_used f p r res ->
    (forall e, requested adds e -> exists d g, stored G p M e d /\ gz_load G f d = Ok g) ->
    (cu_usage (me_custom M) = WithoutStems \/ exists st, rs_stemmer res = Some st) ->
    (forall g vs, exists g', gz_inject G g vs true b = Ok g') ->
    (forall f d, snd (gz_remove G f d) = Ok tt) -> (forall f d g, snd (gz_dump G f d g) = Ok tt) ->
    exists t, inject o1 o2 o3 (request p adds b r) f = (t, Ok tt).
  Proof.
    intros GO HM S U St Us GI GR GD.
    assert (P : exists dirs values, prepare o1 o2 (request p adds b r) f = Ok (dirs, values)).
    { rewrite (prepare_unfold x L fo uo G _ _ _ _ _ _ _ _ HM).
      assert (Dd : exists dirs, get_entity_dirs G o1 (ei_of p M) (bi_of p M) (fst (ci_of p M)) (ij_values (request p adds b r)) = Ok dirs).
      { unfold get_entity_dirs. apply mapM_total. intros e I. apply (proj1 (reorder_In _ _ _)) in I.
        apply request_keys in I. destruct (St e I) as (d & g & Sd & _). apply entity_dir_iff in Sd. rewrite Sd. simpl. eauto. }
      destruct Dd as (dirs & ->). cbn [bind].
      assert (Rr : match r with Some r => Ok r | None => internal (load_engine_shared_resources x L fo uo f p) end = Ok res).
      { unfold S_Inject.resources_used in U. destruct r; [congruence|]. rewrite U. reflexivity. }
      rewrite Rr. cbn [bind].
      match goal with |- context [mapM ?F ?l] => assert (V : exists values, mapM F l = Ok values) end.
      { apply mapM_total. intros [e vs] _. cbv zeta. cbn [fst snd]. destruct (smem e (ei_custom (ei_of p M))); [|eauto].
        destruct (stem_total x (me_lang M) _ _ vs Us) as (vs' & ->). simpl. eauto. }
      destruct V as (values & ->). simpl. eauto. }
    destruct P as (dirs & values & E). unfold M_Inject.inject. rewrite E, request_vanilla.
    destruct (started _ _ _ _ _ _ _ _ _ _ o3 HM S E) as (res' & _ & Sp & D & K & _ & _).
    assert (Ld : forall e, In e (hkeys (reorder o3 values)) -> exists d g, hget str_eqb e dirs = Some d /\ gz_load G f d = Ok g).
    { intros e I. apply K in I. destruct (St e I) as (d & g & Sd & Lg). exists d, g. split; auto. apply D. auto. }
    clear -GO Sp Ld GI GR GD. revert f Ld. induction (reorder o3 values) as [|[e vs] l IH]; intros f Ld; [exists []; reflexivity|].
    simpl. destruct (Ld e) as (d & g & Hd & Lg); [left; reflexivity|]. rewrite Hd.
    assert (Ie : exists t, inject_entity G b f d vs = (t, Ok tt)).
    { unfold inject_entity. rewrite Lg. destruct (GI g vs) as (g' & ->).
      specialize (GR f d). destruct (gz_remove G f d) as [t1 r1]. simpl in GR. subst r1.
      specialize (GD (apply_ops f t1) d g'). destruct (gz_dump G (apply_ops f t1) d g') as [t2 r2]. simpl in GD. subst r2.
      simpl. eauto. }
    destruct Ie as (t & Et). rewrite Et.
    assert (W : within (resolve d) t) by (pose proof (entity_within G GO b f d vs) as W; rewrite Et in W; exact W).
    destruct (IH (sep_tail _ _ _ Sp) (apply_ops f t)) as (t' & ->); [|eauto].
    intros e' I'. destruct (Ld e') as (d' & g' & Hd' & Lg'); [right; exact I'|]. exists d', g'. split; auto.
    rewrite <- Lg'. symmetry. apply (load_local G GO). apply apart_same with (d := resolve d); auto.
    eapply sep_head; eauto.
  Qed.

  (** ** No panic *)
  Lemma never_panics o1 o2 o3 p adds b r f :
    (r = None -> load_engine_shared_resources x L fo uo f p <> Panic) ->
    (forall f d, gz_load G f d <> Panic) -> (forall g vs b b', gz_inject G g vs b b' <> Panic) ->
    (forall f d, snd (gz_remove G f d) <> Panic) -> (forall f d g, snd (gz_dump G f d g) <> Panic) ->
    snd (inject o1 o2 o3 (request p adds b r) f) <> Panic.
  Proof.
    intros PR P1 P2 P3 P4. unfold M_Inject.inject.
    destruct (prepare o1 o2 (request p adds b r) f) as [[dirs values]|er|] eqn:E; [|discriminate|].
    - destruct (prepare_ok _ _ _ _ _ _ _ _ _ _ _ _ _ _ E) as (M & res & HM & U & D & St & ND & V & X).
      apply all_no_index_panic; auto. intros e I. apply mem_keys in I as (vs & I).
      apply (proj1 (reorder_In _ _ _)) in I. apply V in I as [R _]. destruct (St e R) as (d & Sd). exists d. apply D. auto.
    - exfalso. destruct (classic_metadata L fo f p) as [(M & HM)|N].
      2:{ destruct (prepare_bad_metadata x L fo uo G o1 o2 p adds b r f N) as (e & E'). congruence. }
      rewrite (prepare_unfold _ _ _ _ _ _ _ _ _ _ _ _ _ HM) in E. revert E. apply calm_bind.
      + apply calm_mapM. intros e. destruct (entity_dir_err G (ei_of p M) (bi_of p M) (fst (ci_of p M)) e) as [(d & ->)| ->]; discriminate.
      + intros dirs. apply calm_bind.
        * destruct r; [discriminate|]. apply internal_calm. apply PR. reflexivity.
        * intros res. apply calm_bind; [|discriminate]. apply calm_mapM. intros ev. cbv zeta.
          destruct (smem (fst ev) (ei_custom (ei_of p M))); [|discriminate]. apply calm_bind; [apply stem_no_panic|discriminate].
  Qed.
End WithLoader.
