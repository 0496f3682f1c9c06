(** Proofs for C91. *)
From Coq Require Import String List NArith ZArith Bool Arith Lia.
From Verif Require Import Base F32 M_Types M_Engine M_Det M_Lookup M_Feat M_Prob M_Features M_Filler M_Crf
  M_Cache M_Res M_Fs M_Json M_Load M_Inject S_Base S_Res S_Load S_Inject S_Reload S_Injections
  P_Base P_Load P_Names P_Inject P_Effects P_Injection S_Answer S_Made P_Made P_Reload.
Import ListNotations.
Local Open Scope nat_scope.

Section Histories.
  Context (x : Ext) (shape : str -> str) (ngrams : list str -> nat -> list str) (mx : Math) (L : Loader)
          (fo : path -> orders) (uo : path -> nat -> HashOrder) (G : Gaz).
  Notation metadata := (metadata L fo).
  Notation inject := (inject x L fo uo G).
  Notation happened := (happened x L fo uo G).

  (** What no injection changes. *)
  Definition kept (p : path) (m : Meta) (f f' : fs) : Prop :=
    (forall q, In q (meta_files p m) -> f' (resolve q) = f (resolve q)) /\
    (forall q, In q (unit_dirs p m) -> same_below (resolve q) f f').
  Lemma kept_refl p m f : kept p m f f.
  Proof. split; [reflexivity|]. intros q _ r. reflexivity. Qed.
  Lemma kept_trans p m f f1 f2 : kept p m f f1 -> kept p m f1 f2 -> kept p m f f2.
  Proof. intros [A B] [C D]. split; intros q I; [rewrite C, A; auto|]. intros r. rewrite (B q I r). apply (D q I r). Qed.
  Lemma kept_metadata' p m f f' : kept p m f f' -> metadata f p m -> metadata f' p m.
  Proof. intros [A _]. apply metadata_same. exact A. Qed.
  Lemma resolve_below q names : resolve (q ++ map CName names) = resolve q ++ names.
  Proof. apply resolve_under. Qed.
  Lemma kept_stay p m f f' : kept p m f f' -> names_stay L f p m -> names_stay L f' p m.
  Proof.
    intros [_ B] [S T]. split; [|exact T]. intros q names j s I (c & F & J) X. apply (S q names j s I); [|exact X].
    exists c. split; [|exact J]. rewrite resolve_below in *. rewrite (B q I names). exact F.
  Qed.
  Lemma kept_step o1 o2 o3 p adds b r f m t1 t2 : gaz_ok G -> metadata f p m -> tidy p m ->
    fst (inject o1 o2 o3 (request p adds b r) f) = t1 ++ t2 -> kept p m f (apply_ops f t1).
  Proof.
    intros GO HM T H. split.
    - intros q I. eapply rest_unchanged; eauto. intros e d _ S. destruct T as (_ & O & _). apply O; auto. eapply stored_in; eauto.
    - intros q I. eapply (others_unchanged x L fo uo G); eauto. intros e d _ S. destruct T as (_ & _ & A). apply A; auto. eapply stored_in; eauto.
  Qed.

  Lemma happened_kept p m f l f' : gaz_ok G -> tidy p m -> happened p f l f' -> metadata f p m -> kept p m f f'.
  Proof.
    intros GO T H. induction H as [f|f rq o1 o2 o3 t l f' I H IH|f rq o1 o2 o3 t1 t2 l f' I H IH]; intros HM.
    - apply kept_refl.
    - assert (K : kept p m f (apply_ops f t)).
      { eapply (kept_step o1 o2 o3 _ _ _ _ _ _ t []); eauto. rewrite I, app_nil_r. reflexivity. }
      eapply kept_trans; [exact K|]. apply IH. eapply kept_metadata'; eauto.
    - assert (K : kept p m f (apply_ops f t1)) by (eapply (kept_step o1 o2 o3); eauto).
      eapply kept_trans; [exact K|]. apply IH. eapply kept_metadata'; eauto.
  Qed.

  (** ** Elsewhere *)
  Lemma elsewhere p m f l f' q : gaz_ok G -> metadata f p m -> tidy p m -> happened p f l f' ->
    (forall rq b e d, In (rq, b) l -> requested (rq_adds rq) e -> stored G p m e d -> ~ at_or_below (resolve d) q) ->
    f' q = f q.
  Proof.
    intros GO HM T H. revert HM. induction H as [f|f rq o1 o2 o3 t l f' I H IH|f rq o1 o2 o3 t1 t2 l f' I H IH]; intros HM N.
    - reflexivity.
    - assert (E : fst (inject o1 o2 o3 (request p (rq_adds rq) (rq_vanilla rq) (rq_resources rq)) f) = t ++ []) by (rewrite I, app_nil_r; reflexivity).
      rewrite IH.
      + eapply rest_unchanged; eauto. intros e d R S. eapply N; eauto. left. reflexivity.
      + eapply kept_metadata'; [eapply kept_step; eauto|exact HM].
      + intros rq' b e d J. apply (N rq' b). right. exact J.
    - rewrite IH.
      + eapply rest_unchanged; eauto. intros e d R S. eapply N; eauto. left. reflexivity.
      + eapply kept_metadata'; [eapply kept_step; eauto|exact HM].
      + intros rq' b e d J. apply (N rq' b). right. exact J.
  Qed.
  Lemma unchanged_parser p m f l f' d : gaz_ok G -> metadata f p m -> tidy p m -> happened p f l f' ->
    (forall rq b e d', In (rq, b) l -> requested (rq_adds rq) e -> stored G p m e d' -> apart (resolve d') (resolve d)) ->
    gz_load G f' d = gz_load G f d.
  Proof.
    intros GO HM T H A. symmetry. apply (load_local G GO). intros q. symmetry. eapply elsewhere; eauto.
    intros rq b e d' I R S C. destruct (A rq b e d' I R S) as [X Y].
    destruct (prefixes (resolve d') (resolve d) (resolve d ++ q) C) as [P|P]; [exists q; reflexivity|exact (X P)|exact (Y P)].
  Qed.

  (** ** The stemmer *)
  Lemma stemmer_same p m f f' en res : metadata f p m -> names_stay L f p m -> kept p m f f' ->
    from_path x shape ngrams mx L fo uo f p = Ok en -> load_engine_shared_resources x L fo uo f' p = Ok res ->
    rs_stemmer res = rs_stemmer (en_resources en).
  Proof.
    intros HM [PL SN] [K1 K2] E R. pose proof HM as (D1 & _). apply read_json_ok in D1.
    unfold from_path in E. bind_inv E. pose proof E0 as M0. unfold load_model in M0. cbv zeta in M0. bind_inv M0.
    rewrite D1 in M0. injection M0 as <-. bind_inv E. bind_inv E. inv E. cbn [en_resources].
    unfold load_engine_shared_resources in R. cbv zeta in R.
    rewrite (read_json_same L f f') in R by (apply K1; left; reflexivity). rewrite D1 in R. cbn [bind] in R.
    unfold resources_of in *. destruct (ok_or EOther (ld_lang L (ds_language (em_dataset (me_model m))))) as [la| |]; [|discriminate..].
    cbn [bind] in *.
    rewrite (resources_frame x shape L fo uo f f' p la) in R; auto.
    2: { apply K2. left. reflexivity. }
    2: { intros names j s. apply (PL (pjoin p $"resources")). left. reflexivity. }
    2: { apply (K1 (pjoin (custom_dir p m) $"metadata.json")). right. right. left. reflexivity. }
    clear - E2 R. unfold load_shared_resources in *.
    bind_inv E2. rewrite read_json_entities, E in R. cbn [bind] in R.
    bind_inv E2. rewrite E0 in R. cbn [bind] in R. bind_inv E2. bind_inv E2. bind_inv E2. bind_inv E2. bind_inv E2. inv E2.
    bind_inv R. bind_inv R. bind_inv R. bind_inv R. bind_inv R. inv R. reflexivity.
  Qed.

  (** ** Values *)
  Lemma requested_dec adds e : requested adds e \/ ~ requested adds e.
  Proof.
    destruct (values_of adds e) eqn:E; [right; apply values_of_nil; exact E|].
    destruct (in_dec (list_eq_dec N.eq_dec) e (map fst adds)) as [J|J].
    - left. apply in_map_iff in J as ([e1 v1] & <- & J). exists v1. exact J.
    - right. intros (v1 & J1). apply J. apply (in_map fst) in J1. exact J1.
  Qed.
  Lemma given_yes e rq b l : requested (rq_adds rq) e ->
    given e ((rq, b) :: l) = mkGiven (values_of (rq_adds rq) e) (rq_vanilla rq) (rq_resources rq) :: given e l.
  Proof.
    intros R. unfold given. cbn [flat_map fst]. destruct (values_of (rq_adds rq) e) eqn:E; [|reflexivity].
    apply values_of_nil in E. contradiction.
  Qed.
  Lemma given_no e rq b l : ~ requested (rq_adds rq) e -> given e ((rq, b) :: l) = given e l.
  Proof. intros R. unfold given. cbn [flat_map fst]. apply values_of_nil in R. rewrite R. reflexivity. Qed.
  Lemma tidy_apart p m e e' d d' : tidy p m -> stored G p m e d -> stored G p m e' d' -> e <> e' -> apart (resolve d) (resolve d').
  Proof.
    intros (F & _) S S' N. rewrite <- keyed_listed in F. apply stored_keyed in S, S'.
    destruct (keyed_apart _ _ _ F S S') as [E|A]; [congruence|exact A].
  Qed.

  Lemma accumulated p m f0 en f l f' e d : gaz_ok G -> metadata f0 p m -> tidy p m -> names_stay L f0 p m ->
    from_path x shape ngrams mx L fo uo f0 p = Ok en -> kept p m f0 f ->
    happened p f l f' -> stored G p m e d -> (forall rq, In (rq, false) l -> ~ requested (rq_adds rq) e) ->
    (given e l = [] /\ gz_load G f' d = gz_load G f d) \/
    exists g g', gz_load G f d = Ok g /\ gz_load G f' d = Ok g' /\ grows G x m en e (given e l) g g'.
  Proof.
    intros GO HM0 T NS E K H S. revert K. induction H as [f|f rq o1 o2 o3 t l f' I H IH|f rq o1 o2 o3 t1 t2 l f' I H IH]; intros K N.
    - left. split; reflexivity.
    - assert (HM : metadata f p m) by (eapply kept_metadata'; eauto).
      assert (Q : fst (inject o1 o2 o3 (request p (rq_adds rq) (rq_vanilla rq) (rq_resources rq)) f) = t ++ []) by (rewrite I, app_nil_r; reflexivity).
      assert (K1 : kept p m f0 (apply_ops f t)) by (eapply kept_trans; [exact K|eapply kept_step; eauto]).
      specialize (IH K1 (fun rq' J => N rq' (or_intror J))).
      destruct (requested_dec (rq_adds rq) e) as [R|R].
      + rewrite (given_yes _ _ _ _ R). right.
        destruct (injected x L fo uo G _ _ _ _ _ _ _ _ _ _ GO HM (tidy_separate G p m (rq_adds rq) T) I) as (res & Ur & U).
        destruct (U e R) as (d' & S' & g & vs & g1 & A1 & A2 & A3 & A4).
        rewrite (stored_unique G p m e d' d S' S) in *.
        assert (St : rs_stemmer res = stemmer_of en (mkGiven (values_of (rq_adds rq) e) (rq_vanilla rq) (rq_resources rq))).
        { unfold stemmer_of. cbn [gv_resources]. unfold resources_used in Ur. destruct (rq_resources rq) as [r'|]; [rewrite Ur; reflexivity|].
          exact (stemmer_same p m f0 f en res HM0 NS K E Ur). }
        rewrite St in A2. destruct IH as [[E0 E1]|(g0 & g' & E0 & E1 & Gr)].
        * exists g, g1. split; [exact A1|]. split; [congruence|]. econstructor; eauto. rewrite E0. constructor.
        * exists g, g'. split; [exact A1|]. split; [exact E1|]. econstructor; eauto. congruence.
      + rewrite (given_no _ _ _ _ R).
        assert (Same : gz_load G (apply_ops f t) d = gz_load G f d).
        { eapply (others_unchanged x L fo uo G); eauto. intros e' d' R' S'. eapply tidy_apart; eauto. intros ->. contradiction. }
        rewrite <- Same. exact IH.
    - assert (HM : metadata f p m) by (eapply kept_metadata'; eauto).
      assert (K1 : kept p m f0 (apply_ops f t1)) by (eapply kept_trans; [exact K|eapply kept_step; eauto]).
      specialize (IH K1 (fun rq' J => N rq' (or_intror J))).
      assert (R : ~ requested (rq_adds rq) e) by (apply N; left; reflexivity).
      rewrite (given_no _ _ _ _ R).
      assert (Same : gz_load G (apply_ops f t1) d = gz_load G f d).
      { eapply (others_unchanged x L fo uo G); eauto. intros e' d' R' S'. eapply tidy_apart; eauto. intros ->. contradiction. }
      rewrite <- Same. exact IH.
  Qed.
  Lemma values p m f en l f' e d : gaz_ok G -> metadata f p m -> tidy p m -> names_stay L f p m ->
    from_path x shape ngrams mx L fo uo f p = Ok en -> happened p f l f' -> stored G p m e d ->
    (forall rq, In (rq, false) l -> ~ requested (rq_adds rq) e) ->
    (given e l = [] /\ gz_load G f' d = gz_load G f d) \/
    exists g g', gz_load G f d = Ok g /\ gz_load G f' d = Ok g' /\ grows G x m en e (given e l) g g'.
  Proof. intros. eapply accumulated; eauto. apply kept_refl. Qed.

  (** ** Two histories *)
  Lemma grows_unique (p : path) m en e l : forall g g1 g2, grows G x m en e l g g1 -> grows G x m en e l g g2 -> g1 = g2.
  Proof.
    induction l as [|gv l IH]; intros g g1 g2 A B; inversion A; subst; inversion B; subst; [reflexivity|].
    match goal with A1 : handed _ _ _ _ _ ?a, A2 : handed _ _ _ _ _ ?b |- _ =>
      assert (a = b) as -> by (exact (handed_unique x p m _ _ _ _ _ A1 A2)) end.
    eapply IH; [eassumption|]. congruence.
  Qed.
  Lemma same_values p m f en l1 l2 f1 f2 e d : gaz_ok G -> metadata f p m -> tidy p m -> names_stay L f p m ->
    from_path x shape ngrams mx L fo uo f p = Ok en -> happened p f l1 f1 -> happened p f l2 f2 -> stored G p m e d ->
    (forall rq, In (rq, false) l1 \/ In (rq, false) l2 -> ~ requested (rq_adds rq) e) ->
    given e l1 = given e l2 -> gz_load G f1 d = gz_load G f2 d.
  Proof.
    intros GO HM T NS E H1 H2 S N A.
    destruct (values p m f en l1 f1 e d GO HM T NS E H1 S (fun rq J => N rq (or_introl J))) as [[E1 L1]|(g & g1 & G1 & L1 & W1)];
    destruct (values p m f en l2 f2 e d GO HM T NS E H2 S (fun rq J => N rq (or_intror J))) as [[E2 L2]|(g' & g2 & G2 & L2 & W2)].
    - congruence.
    - rewrite <- A, E1 in W2. inversion W2; subst. congruence.
    - rewrite A, E2 in W1. inversion W1; subst. congruence.
    - assert (g' = g) as -> by congruence. rewrite A in W1. rewrite (grows_unique p _ _ _ _ _ _ _ W1 W2) in L1. congruence.
  Qed.

  Lemma still_loads_all make mkb p m f en l f' : gaz_ok G -> assembled L G make mkb -> taggers_local L ->
    metadata f p m -> tidy p m -> names_stay L f p m -> happened p f l f' -> all_done l ->
    from_path x shape ngrams mx L fo uo f p = Ok en ->
    exists en', from_path x shape ngrams mx L fo uo f' p = Ok en' /\
      en_dataset en' = en_dataset en /\ same_but_entities (en_resources en) (en_resources en').
  Proof.
    intros GO AS TL HM T NS H. revert HM NS en. induction H as [f|f rq o1 o2 o3 t l f' I H IH|f rq o1 o2 o3 t1 t2 l f' I H IH]; intros HM NS en D E.
    - exists en. split; [exact E|]. split; [reflexivity|]. repeat split.
    - assert (K : kept p m f (apply_ops f t)).
      { eapply (kept_step o1 o2 o3 _ _ _ _ _ _ t []); eauto. rewrite I, app_nil_r. reflexivity. }
      destruct (still_loads x shape ngrams mx L fo uo G make mkb _ _ _ _ _ _ _ _ _ _ _ GO AS TL HM T NS I E) as (en1 & E1 & Da1 & S1).
      destruct (IH (kept_metadata' _ _ _ _ K HM) (kept_stay _ _ _ _ K NS) en1 (fun rq' b J => D rq' b (or_intror J)) E1) as (en2 & E2 & Da2 & S2).
      exists en2. split; [exact E2|]. split; [congruence|].
      destruct S1 as (A1 & A2 & A3 & A4), S2 as (B1 & B2 & B3 & B4). repeat split; congruence.
    - exfalso. specialize (D rq false (or_introl eq_refl)). discriminate.
  Qed.

  (** ** The same engine *)
  Lemma given_nil e l : given e l = [] -> forall rq b, In (rq, b) l -> ~ requested (rq_adds rq) e.
  Proof.
    intros E rq b I R. induction l as [|[rq' b'] l IH]; [destruct I|].
    destruct (requested_dec (rq_adds rq') e) as [Q|Q].
    - rewrite (given_yes _ _ _ _ Q) in E. discriminate.
    - rewrite (given_no _ _ _ _ Q) in E. destruct I as [H|I]; [|auto]. inv H. contradiction.
  Qed.
  Lemma given_some e l gv l' : given e l = gv :: l' -> exists rq b, In (rq, b) l /\ requested (rq_adds rq) e.
  Proof.
    intros E. induction l as [|[rq' b'] l IH]; [discriminate|].
    destruct (requested_dec (rq_adds rq') e) as [Q|Q].
    - exists rq', b'. split; [left; reflexivity|exact Q].
    - rewrite (given_no _ _ _ _ Q) in E. destruct (IH E) as (rq & b & I & R). exists rq, b. split; [right; exact I|exact R].
  Qed.
  Lemma requested_stored p m f l f' rq e : gaz_ok G -> metadata f p m -> tidy p m -> happened p f l f' -> all_done l ->
    (exists b, In (rq, b) l) -> requested (rq_adds rq) e -> exists d, stored G p m e d.
  Proof.
    intros GO HM T H. revert HM. induction H as [f|f rq' o1 o2 o3 t l f' I H IH|f rq' o1 o2 o3 t1 t2 l f' I H IH]; intros HM D [b J] R.
    - destruct J.
    - destruct J as [E|J].
      + inv E. destruct (injected x L fo uo G _ _ _ _ _ _ _ _ _ _ GO HM (tidy_separate G p m (rq_adds rq) T) I) as (res & _ & U).
        destruct (U e R) as (d & S & _). exists d. exact S.
      + apply IH; eauto.
        * eapply kept_metadata'; [|exact HM]. eapply (kept_step o1 o2 o3 _ _ _ _ _ _ t []); eauto. rewrite I, app_nil_r. reflexivity.
        * intros rq'' b'' J''. apply (D rq'' b''). right. exact J''.
    - specialize (D rq' false (or_introl eq_refl)). discriminate.
  Qed.
  Lemma same_parser p m f en l1 l2 f1 f2 e d : gaz_ok G -> metadata f p m -> tidy p m -> names_stay L f p m ->
    from_path x shape ngrams mx L fo uo f p = Ok en -> happened p f l1 f1 -> happened p f l2 f2 ->
    all_done l1 -> all_done l2 -> (forall e, given e l1 = given e l2) ->
    In (e, d) (keyed p m) -> gz_load G f1 d = gz_load G f2 d.
  Proof.
    intros GO HM T NS E H1 H2 D1 D2 A I. pose proof T as (F & _). rewrite <- keyed_listed in F.
    assert (Un : forall l f', happened p f l f' ->
              (forall rq b, In (rq, b) l -> requested (rq_adds rq) e -> ~ stored G p m e d) -> gz_load G f' d = gz_load G f d).
    { intros l f' H N. eapply unchanged_parser; eauto. intros rq b e' d' J R S.
      destruct (keyed_apart _ _ _ F (stored_keyed G _ _ _ _ S) I) as [Q|Q]; [|exact Q]. inv Q. exfalso. exact (N rq b J R S). }
    destruct (given e l1) as [|gv gs] eqn:V.
    - rewrite (Un l1 f1 H1), (Un l2 f2 H2); [reflexivity|..]; intros rq b J R; exfalso.
      + rewrite A in V. exact (given_nil _ _ V rq b J R).
      + exact (given_nil _ _ V rq b J R).
    - destruct (given_some _ _ _ _ V) as (rq & b & J & R).
      destruct (requested_stored p m f l1 f1 rq e GO HM T H1 D1 (ex_intro _ b J) R) as (d' & S).
      destruct (keyed_apart _ _ _ F (stored_keyed G _ _ _ _ S) I) as [Q|Q].
      + inv Q. eapply same_values; eauto. intros rq' [K|K]; [specialize (D1 _ _ K)|specialize (D2 _ _ K)]; discriminate.
      + assert (N : ~ stored G p m e d).
        { intros S'. rewrite (stored_unique G p m e _ _ S' S) in Q. exact (apart_irrefl _ Q). }
        rewrite (Un l1 f1 H1), (Un l2 f2 H2); auto.
  Qed.
  Lemma loads_same f1 f2 dir parsers gs : (forall ep, In ep parsers -> gz_load G f1 (pjoin dir (snd ep)) = gz_load G f2 (pjoin dir (snd ep))) ->
    loads G f1 dir parsers gs -> loads G f2 dir parsers gs.
  Proof.
    intros S H. unfold loads in *. induction H as [|ep g ps gs [E1 E2] H IH]; constructor.
    - split; [exact E1|]. rewrite <- S by (left; reflexivity). exact E2.
    - apply IH. intros ep' J. apply S. right. exact J.
  Qed.

  (** The engine of a tree depends on what is kept and on the parsers. *)
  Lemma engine_by_parsers make mkb p m f f1 f2 en1 : assembled L G make mkb -> taggers_local L ->
    metadata f p m -> names_stay L f p m -> kept p m f f1 -> kept p m f f2 ->
    (forall e d, In (e, d) (keyed p m) -> gz_load G f1 d = gz_load G f2 d) ->
    from_path x shape ngrams mx L fo uo f1 p = Ok en1 -> from_path x shape ngrams mx L fo uo f2 p = Ok en1.
  Proof.
    intros AS TL HM NS K1 K2 SP E1.
    assert (HM1 := kept_metadata' _ _ _ _ K1 HM). assert (HM2 := kept_metadata' _ _ _ _ K2 HM).
    destruct (parts x shape ngrams mx L fo uo f1 p m en1 HM1 E1) as (bp & gaz & la & Eb & El & Eg & _).
    destruct AS as [AG AB].
    assert (Eg2 : ld_gazetteer L f2 (custom_gazetteers p m) = Ok gaz).
    { pose proof HM1 as (_ & _ & _ & _ & _ & D5). pose proof HM2 as (_ & _ & _ & _ & _ & D5').
      apply (AG _ _ _ _ D5) in Eg as (gs & Lg & Q). apply (AG _ _ _ _ D5'). exists gs. split; [|exact Q].
      eapply loads_same; [|exact Lg]. intros ep J. eapply SP. apply custom_keyed. exact J. }
    assert (Eb2 : ld_builtin L f2 (builtin_dir p m) = Ok bp).
    { pose proof HM1 as (_ & _ & D2' & D3' & _). pose proof HM2 as (_ & _ & D2'' & D3'' & _).
      destruct D2' as (j & J & D2'), D2'' as (j' & J' & D2'').
      assert (j' = j) as ->.
      { apply (json_det L f2 _ _ _ J'). eapply json_same; [|exact J].
        assert (In (pjoin (builtin_dir p m) $"metadata.json") (meta_files p m)) as IM by (right; left; reflexivity).
        rewrite (proj1 K1 _ IM), (proj1 K2 _ IM). reflexivity. }
      destruct (me_builtin m) as [[name parsers]|] eqn:B; cbn [option_map] in D2', D2''.
      - specialize (D3' _ _ eq_refl). specialize (D3'' _ _ eq_refl).
        apply (proj2 (AB _ _ _ _ J) _ _ D2' D3') in Eb as (mk & bs & Em & Lb & Q).
        apply (proj2 (AB _ _ _ _ J') _ _ D2'' D3''). exists mk, bs. split; [exact Em|]. split; [|exact Q].
        eapply loads_same; [|exact Lb]. intros ep Jp. eapply SP. eapply builtin_keyed; eauto.
      - apply (proj1 (AB _ _ _ _ J) D2') in Eb. apply (proj1 (AB _ _ _ _ J') D2''). exact Eb. }
    assert (Fr : forall f', kept p m f f' -> from_path x shape ngrams mx L fo uo f' p = from_path x shape ngrams mx (entities_from L f') fo uo f p).
    { intros f' [Ka Kb]. destruct NS as [PL SN]. pose proof HM as (Dm & _). apply read_json_ok in Dm.
      apply (reload_frame x shape ngrams mx L fo uo f f' p (me_model m)); auto.
      - apply Ka. left. reflexivity.
      - apply (Ka (pjoin (custom_dir p m) $"metadata.json")). right. right. left. reflexivity.
      - intros q J. split; [apply Kb; exact J|]. intros names j s. apply (PL q). exact J. }
    rewrite (Fr f1 K1) in E1. rewrite (Fr f2 K2). rewrite <- E1.
    pose proof HM as (Dm & _ & _ & _ & D4 & _). apply read_json_ok in Dm. apply read_json_ok in D4.
    clear - Dm D4 Eb Eb2 Eg Eg2 El.
    unfold from_path. change (load_model (entities_from L f2)) with (load_model L). change (load_model (entities_from L f1)) with (load_model L).
    destruct (load_model L fo f p) as [m'| |] eqn:M0; cbn [bind]; [|reflexivity..].
    assert (m' = me_model m) as ->.
    { unfold load_model in M0. cbv zeta in M0. bind_inv M0. congruence. }
    change (load_intent_parsers x shape ngrams mx (entities_from L f2)) with (load_intent_parsers x shape ngrams mx L).
    change (load_intent_parsers x shape ngrams mx (entities_from L f1)) with (load_intent_parsers x shape ngrams mx L).
    assert (R : resources_of x (entities_from L f2) uo f p (me_model m) = resources_of x (entities_from L f1) uo f p (me_model m)).
    { unfold resources_of. change (ld_lang (entities_from L f2)) with (ld_lang L). change (ld_lang (entities_from L f1)) with (ld_lang L).
      change (ld_lang_name (entities_from L f2)) with (ld_lang_name L). change (ld_lang_name (entities_from L f1)) with (ld_lang_name L).
      destruct (ok_or EOther (ld_lang L (ds_language (em_dataset (me_model m))))) as [lg| |]; [|reflexivity..].
      cbn [bind]. unfold load_shared_resources, load_builtin, load_custom. rewrite !read_json_entities.
      cbn [ld_builtin ld_gazetteer ld_lang entities_from].
      unfold custom_dir in D4. rewrite D4. cbn [bind].
      change (pjoin (pjoin p (em_custom (me_model m))) (cu_directory (me_custom m))) with (custom_gazetteers p m).
      unfold builtin_dir in Eb, Eb2. rewrite Eb, Eb2, Eg, Eg2. reflexivity. }
    rewrite R. reflexivity.
  Qed.

  Lemma same_engine make mkb p m f en l1 l2 f1 f2 : gaz_ok G -> assembled L G make mkb -> taggers_local L ->
    metadata f p m -> tidy p m -> names_stay L f p m -> from_path x shape ngrams mx L fo uo f p = Ok en ->
    happened p f l1 f1 -> happened p f l2 f2 -> all_done l1 -> all_done l2 -> (forall e, given e l1 = given e l2) ->
    exists en', from_path x shape ngrams mx L fo uo f1 p = Ok en' /\ from_path x shape ngrams mx L fo uo f2 p = Ok en'.
  Proof.
    intros GO AS TL HM T NS E H1 H2 D1 D2 A.
    destruct (still_loads_all make mkb p m f en l1 f1 GO AS TL HM T NS H1 D1 E) as (en1 & E1 & _).
    exists en1. split; [exact E1|].
    exact (engine_by_parsers make mkb p m f f1 f2 en1 AS TL HM NS (happened_kept p m f l1 f1 GO T H1 HM) (happened_kept p m f l2 f2 GO T H2 HM)
      (fun e d => same_parser p m f en l1 l2 f1 f2 e d GO HM T NS E H1 H2 D1 D2 A) E1).
  Qed.

  (** ** No way back *)
  Lemma resources_parts f p m res : metadata f p m -> load_engine_shared_resources x L fo uo f p = Ok res ->
    (exists b, ld_builtin L f (builtin_dir p m) = Ok b) /\ (exists gaz, ld_gazetteer L f (custom_gazetteers p m) = Ok gaz).
  Proof.
    intros (D1 & _ & _ & _ & D4 & _) R. apply read_json_ok in D1. apply read_json_ok in D4.
    unfold load_engine_shared_resources in R. cbv zeta in R. rewrite D1 in R. cbn [bind] in R.
    unfold resources_of in R. bind_inv R. unfold load_shared_resources in R.
    repeat bind_inv R. inv R.
    repeat match goal with H : load_builtin _ _ _ _ = _ |- _ => unfold load_builtin in H | H : load_custom _ _ _ _ = _ |- _ => unfold load_custom in H end.
    change (pjoin p (em_custom (me_model m))) with (custom_dir p m) in E6. rewrite D4 in E6. cbn [bind] in E6.
    bind_inv E5. bind_inv E6. bind_inv E6. split; [exists a7; exact E7|exists a9; exact E9].
  Qed.
  Lemma loads_each f dir parsers gs ep : loads G f dir parsers gs -> In ep parsers -> exists g, gz_load G f (pjoin dir (snd ep)) = Ok g.
  Proof. intros H. unfold loads in H. induction H as [|a g ps gs [_ E] H IH]; [intros []|]. intros [<-|J]; eauto. Qed.
  Lemma loads_listed make mkb f p m res d : assembled L G make mkb -> metadata f p m ->
    load_engine_shared_resources x L fo uo f p = Ok res -> In d (listed p m) -> exists g, gz_load G f d = Ok g.
  Proof.
    intros [AG AB] HM R I. destruct (resources_parts f p m res HM R) as [(b & Eb) (gaz & Eg)].
    destruct HM as (_ & _ & (j & J & D2) & D3 & _ & D5). unfold listed in I. apply in_app_or in I as [I|I].
    - apply in_map_iff in I as (ep & <- & I). apply (AG _ _ _ _ D5) in Eg as (gs & Lg & _). eapply loads_each; eauto.
    - destruct (me_builtin m) as [[name parsers]|] eqn:B; [|destruct I]. apply in_map_iff in I as (ep & <- & I).
      apply (proj2 (AB _ _ _ _ J) _ _ D2 (D3 _ _ eq_refl)) in Eb as (mk & bs & _ & Lb & _). eapply loads_each; eauto.
  Qed.
  Lemma stuck_one make mkb o1 o2 o3 p m f adds b d : assembled L G make mkb -> metadata f p m ->
    In d (listed p m) -> (forall g, gz_load G f d <> Ok g) ->
    fst (inject o1 o2 o3 (request p adds b None) f) = [] /\ snd (inject o1 o2 o3 (request p adds b None) f) <> Ok tt.
  Proof.
    intros AS HM I N. unfold M_Inject.inject.
    destruct (prepare x L fo uo G o1 o2 (request p adds b None) f) as [[dirs vals]| |] eqn:P; [|split; [reflexivity|discriminate]..].
    exfalso. unfold prepare in P. rewrite request_res, request_dir in P. do 5 bind_inv P.
    destruct (load_engine_shared_resources x L fo uo f p) as [res| |] eqn:R; [|discriminate..].
    destruct (loads_listed _ _ _ _ _ _ _ AS HM R I) as (g & Eg). exact (N g Eg).
  Qed.
  Lemma stuck make mkb p m f l f' d : assembled L G make mkb -> metadata f p m ->
    In d (listed p m) -> (forall g, gz_load G f d <> Ok g) -> happened p f l f' ->
    (forall rq b, In (rq, b) l -> rq_resources rq = None) ->
    f' = f /\ forall rq b, In (rq, b) l -> b = false.
  Proof.
    intros AS HM I N H. induction H as [f|f rq o1 o2 o3 t l f' J H IH|f rq o1 o2 o3 t1 t2 l f' J H IH]; intros Q.
    - split; [reflexivity|]. intros rq b [].
    - exfalso. rewrite (Q rq true (or_introl eq_refl)) in J.
      destruct (stuck_one make mkb o1 o2 o3 p m f (rq_adds rq) (rq_vanilla rq) d AS HM I N) as [_ S]. rewrite J in S. apply S. reflexivity.
    - rewrite (Q rq false (or_introl eq_refl)) in J.
      destruct (stuck_one make mkb o1 o2 o3 p m f (rq_adds rq) (rq_vanilla rq) d AS HM I N) as [S _]. rewrite J in S.
      apply app_eq_nil in S as [-> ->]. cbn [apply_ops fold_left] in *.
      destruct (IH HM N (fun rq' b' K => Q rq' b' (or_intror K))) as [E F]. split; [exact E|].
      intros rq' b' [K|K]; [congruence|eauto].
  Qed.
End Histories.
