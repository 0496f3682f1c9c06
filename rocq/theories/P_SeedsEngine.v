(** Proofs for C82: the engine. *)
From Coq Require Import String List NArith ZArith Bool Arith Lia Permutation FunctionalExtensionality.
From Verif Require Import Base Sorting F32 M_Types M_Utils M_Engine M_Det M_Lookup M_Feat M_Prob M_Features M_Crf M_Filler M_Cache M_Res M_Fs M_Json M_Load
  S_Base S_Utils S_Det S_Rank S_Rules S_Load S_Match S_Answer S_Made S_Seeds
  P_Base P_Utils P_Engine P_Feat P_Det P_Rank P_Rules P_Match P_MatchDet P_Load P_Made P_Seeds P_SeedsRules.
Import ListNotations.
Local Open Scope list_scope.
Local Open Scope nat_scope.

Lemma classifier_filter mx c input f f' : same_filter f f' -> cl_get_intent mx c input f = cl_get_intent mx c input f'.
Proof.
  intros Ff. unfold cl_get_intent. f_equal. unfold get_intents_with_whitelist. destruct (length (cl_intents c) <=? 1); auto.
  destruct input; auto. destruct (cl_featurizer c); auto. destruct (cl_logreg c); auto.
  destruct (o _); auto. cbn [bind]. destruct (logreg_run mx l a); auto. cbn [bind]. f_equal.
  apply filter_ext. intros r. destruct (ir_name r); auto. destruct f, f'; simpl in Ff; try contradiction; auto.
Qed.

Lemma whitelist_same o o' en en' w b : same_map (same_map eq) (ds_slot_name_mappings (en_dataset en)) (ds_slot_name_mappings (en_dataset en')) ->
  both same_filter (get_intents_whitelist o en w b) (get_intents_whitelist o' en' w b).
Proof.
  intros S. unfold get_intents_whitelist, all_intents. apply same_map_keys in S.
  set (a := reorder o _). set (a' := reorder o' _).
  assert (P : Permutation a a').
  { unfold a, a'. eapply perm_trans; [apply Permutation_sym, reorder_perm|]. eapply perm_trans; [exact S|apply reorder_perm]. }
  clearbody a a'. clear S.
  assert (F : forall l, find (fun i => negb (smem i a)) l = find (fun i => negb (smem i a')) l).
  { induction l as [|i l IH]; simpl; auto. rewrite (smem_perm i _ _ P), IH. reflexivity. }
  rewrite F. destruct (find _ _); [exact I|]. simpl.
  assert (Q : forall v i, smem i (filter (fun k => negb (smem k v)) a) = smem i (filter (fun k => negb (smem k v)) a')).
  { intros v i. apply smem_perm, Permutation_filter', P. }
  destruct w as [w|], b as [b|]; simpl; auto.
  intros i. unfold intersect. apply smem_perm, Permutation_filter', Permutation_filter', P.
Qed.

Lemma replace_short x m res input i decls : texts_fit x m res input -> In (i, decls) (dm_slots m) ->
  forall es mapping formatted, entities_found res input (det_scope x decls) es ->
    replace_entities input es (get_entity_placeholder x) = (mapping, formatted) -> (Z.of_nat (length formatted) < 32768)%Z.
Proof.
  intros [_ F2] Hd es mapping formatted Ef Re.
  assert (T := replace_entities_text input es (get_entity_placeholder x)). rewrite Re in T. cbn [snd] in T. rewrite T.
  replace (edits_of (get_entity_placeholder x) (deduplicate_overlapping_entities es))
    with (map (fun e => (me_range e, placeholder x (me_name e))) (deduplicate_overlapping_entities es)).
  - apply (F2 i decls (deduplicate_overlapping_entities es)); auto.
    exists (det_scope x decls), es. split; [apply scope_eq; reflexivity|auto].
  - unfold edits_of. apply map_ext. intros e. rewrite placeholder_eq. reflexivity.
Qed.

Lemma two_of_one (i0 : str) (P : str -> Prop) : (forall i, P i -> i = i0) -> at_most_two P.
Proof. intros H i j k Pi Pj _. left. rewrite (H i Pi), (H j Pj). reflexivity. Qed.

Section Engine.
  Context (x : Ext) (shape : str -> str) (ngrams : list str -> nat -> list str) (mx : Math) (L : Loader)
          (fo fo' : path -> orders) (uo uo' : path -> nat -> HashOrder) (f : fs).
  Hypothesis once : pairs_once L f.
  Hypothesis Sets : filters_are_sets L.

  Inductive twin (res : Resources) (p : path) : IntentParser -> IntentParser -> Prop :=
  | twin_det m dp dp' : rules_at L fo f p (Patterns m) ->
      det_new x (ld_lang L) (ld_regex L) (uo p 0) (uo p 1) (uo p 2) m res = Ok dp -> same_det dp dp' ->
      twin res p (det_intent_parser x (uo p 3) dp) (det_intent_parser x (uo' p 3) dp')
  | twin_lookup m lp lp' : rules_at L fo f p (Table m) -> lookup_new (ld_lang L) (uo p 0) m res = Ok lp -> same_lookup lp lp' ->
      twin res p (lookup_intent_parser x (uo p 3) lp) (lookup_intent_parser x (uo' p 3) lp')
  | twin_prob c fillers : twin res p (prob_intent_parser (mkPP (logreg_classifier mx c) fillers))
                                     (prob_intent_parser (mkPP (logreg_classifier mx c) fillers)).

  Lemma both_parser p r r' : same_res r r' ->
    both (twin r p)
      (let* u := read_json L f (pjoin p $"metadata.json") d_unit in build_intent_parser x shape ngrams mx L fo uo f p u r)
      (let* u := read_json L f (pjoin p $"metadata.json") d_unit in build_intent_parser x shape ngrams mx L fo' uo' f p u r').
  Proof.
    intros R. destruct (read_json L f (pjoin p $"metadata.json") d_unit) as [u| |] eqn:U; try exact I. cbn [bind].
    destruct u; try exact I; cbn [build_intent_parser].
    - unfold load_deterministic. cbv zeta.
      pose proof (both_read L f same_det_model (pjoin p $"intent_parser.json") (d_deterministic (fo (pjoin p $"intent_parser.json")))
                    (d_deterministic (fo' (pjoin p $"intent_parser.json")))) as K.
      specialize (K (fun j _ => both_det _ _ j)).
      destruct (read_json L f (pjoin p $"intent_parser.json") (d_deterministic (fo (pjoin p $"intent_parser.json")))) as [m| |] eqn:M;
        destruct (read_json L f (pjoin p $"intent_parser.json") (d_deterministic (fo' (pjoin p $"intent_parser.json")))) as [m'| |] eqn:M';
        cbn [both] in K; try contradiction; try exact I. cbn [bind].
      pose proof (both_det_new x L (uo p 0) (uo p 1) (uo p 2) (uo' p 0) (uo' p 1) (uo' p 2) m m' r r' R K) as N.
      destruct (det_new x _ _ (uo p 0) _ _ m r) as [dp| |] eqn:E; destruct (det_new x _ _ (uo' p 0) _ _ m' r') as [dp'| |]; cbn [both bind] in *;
        try contradiction; try exact I. apply twin_det with m; auto. split; [apply (says_iff L fo f p _ (fun _ => d_unit)); exact U|].
      apply (says_iff L fo f p _ d_deterministic). exact M.
    - unfold load_lookup. cbv zeta.
      pose proof (both_read L f same_lookup_model (pjoin p $"intent_parser.json") (d_lookup (fo (pjoin p $"intent_parser.json")))
                    (d_lookup (fo' (pjoin p $"intent_parser.json")))) as K.
      specialize (K (fun j _ => both_lookup _ _ j)).
      destruct (read_json L f (pjoin p $"intent_parser.json") (d_lookup (fo (pjoin p $"intent_parser.json")))) as [m| |] eqn:M;
        destruct (read_json L f (pjoin p $"intent_parser.json") (d_lookup (fo' (pjoin p $"intent_parser.json")))) as [m'| |] eqn:M';
        cbn [both] in K; try contradiction; try exact I. cbn [bind].
      pose proof (both_lookup_new L (uo p 0) (uo' p 0) m m' r r' R K) as N.
      destruct (lookup_new _ (uo p 0) m r) as [dp| |] eqn:E; destruct (lookup_new _ (uo' p 0) m' r') as [dp'| |]; cbn [both bind] in *;
        try contradiction; try exact I. apply twin_lookup with m; auto. split; [apply (says_iff L fo f p _ (fun _ => d_unit)); exact U|].
      apply (says_iff L fo f p _ d_lookup). exact M.
    - pose proof (both_prob x shape ngrams mx L fo fo' uo uo' f once p r r' R) as K.
      destruct (load_probabilistic x shape ngrams mx L fo uo f p r) as [pp| |] eqn:E;
        destruct (load_probabilistic x shape ngrams mx L fo' uo' f p r') as [pp'| |]; cbn [both bind] in *; try contradiction; try exact I.
      rewrite <- (same_prob_eq _ _ K). unfold load_probabilistic in E. bind_inv E. bind_inv E. bind_inv E. injection E as <-.
      unfold build_intent_classifier in E1. bind_inv E1. destruct a2; try discriminate. bind_inv E1. injection E1 as <-.
      unfold prob_new. apply twin_prob.
  Qed.

  Definition twins (p : path) (m : EngineModel) (en en' : Engine) : Prop :=
    file_says L fo f p $"nlu_engine.json" d_engine m /\ en_dataset en = em_dataset m /\
    same_dataset (en_dataset en) (en_dataset en') /\
    rs_builtin (en_resources en) = rs_builtin (en_resources en') /\ rs_custom (en_resources en) = rs_custom (en_resources en') /\
    exists names, em_parsers m = names /\
      Forall2 (fun name pp => twin (en_resources en) (pjoin p name) (fst pp) (snd pp)) names (combine (en_parsers en) (en_parsers en')) /\
      length (en_parsers en) = length (en_parsers en').

  Lemma Forall2_combine {A B C} (R : A -> B -> C -> Prop) : forall names l l',
    length names = length l -> length names = length l' ->
    (forall k a b c, nth_error names k = Some a -> nth_error l k = Some b -> nth_error l' k = Some c -> R a b c) ->
    Forall2 (fun n bc => R n (fst bc) (snd bc)) names (combine l l').
  Proof.
    induction names as [|n names IH]; intros [|b l] [|c l'] E E' H; try discriminate; simpl; constructor.
    - apply (H 0); reflexivity.
    - apply IH; [simpl in E; lia|simpl in E'; lia|]. intros k. exact (H (S k)).
  Qed.

  Lemma both_mapM_pairs {A B C} (R : A -> B -> C -> Prop) (g : A -> outcome B) (g' : A -> outcome C) l :
    (forall a, In a l -> both (R a) (g a) (g' a)) ->
    both (fun r r' => Forall2 (fun a bc => R a (fst bc) (snd bc)) l (combine r r') /\ length r = length r') (mapM g l) (mapM g' l).
  Proof.
    induction l as [|a l IH]; intros H; simpl; [split; constructor|].
    eapply both_bind; [exact (H a (or_introl eq_refl))|]. intros b c _ _ Rbc.
    eapply both_bind; [apply IH; intros; apply H; right; auto|]. intros bs cs _ _ [F E]. simpl. split; [constructor; auto|congruence].
  Qed.

  Lemma both_from_path p :
    both (fun en en' => exists m, twins p m en en')
      (from_path x shape ngrams mx L fo uo f p) (from_path x shape ngrams mx L fo' uo' f p).
  Proof.
    unfold from_path. eapply both_bind with (R := fun m m' => same_engine_model m m' /\ file_says L fo f p $"nlu_engine.json" d_engine m).
    - unfold load_model, check_model_version. cbv zeta. both_same.
      eapply both_impl with (R := fun m m' => same_engine_model m m' /\ read_json L f (pjoin p $"nlu_engine.json") (d_engine (fo (pjoin p $"nlu_engine.json"))) = Ok m).
      { intros m m' [S E]. split; auto. apply (says_iff L fo f p _ d_engine). exact E. }
      pose proof (both_read L f same_engine_model (pjoin p $"nlu_engine.json") (d_engine (fo (pjoin p $"nlu_engine.json")))
                    (d_engine (fo' (pjoin p $"nlu_engine.json"))) (fun j _ => both_engine _ _ j)) as K.
      destruct (read_json L f (pjoin p $"nlu_engine.json") (d_engine (fo (pjoin p $"nlu_engine.json"))));
        destruct (read_json L f (pjoin p $"nlu_engine.json") (d_engine (fo' (pjoin p $"nlu_engine.json")))); cbn [both] in *; auto.
    - intros m m' _ _ [S M]. eapply both_bind; [apply both_resources; exact S|]. intros r r' _ _ R.
      destruct S as (S1 & S2 & _). unfold load_intent_parsers. rewrite <- S2.
      eapply both_bind; [apply both_mapM_pairs with (R := fun name => twin r (pjoin p name)); intros name _; cbv zeta; apply both_parser; exact R|].
      intros ps ps' _ _ [F E]. simpl. exists m. split; [exact M|]. cbn [en_dataset en_resources en_parsers].
      split; [reflexivity|]. split; [exact S1|]. split; [exact (proj1 R)|]. split; [exact (proj1 (proj2 R))|]. eauto.
  Qed.

  Lemma loaded_sets p en : from_path x shape ngrams mx L fo uo f p = Ok en -> ignores_order (en_resources en).
  Proof.
    intros H. destruct Sets as [SB SG]. apply entity_parsers in H as (m & b & cm & l & gaz & _ & B & EB & _ & _ & G & EG). split.
    - intros s k k' c n P. rewrite !EB. exact (SB _ _ _ B _ _ _ _ P).
    - intros s k k' n P. rewrite EG. unfold custom_entities, custom_extract. rewrite (SG _ _ _ G _ _ _ n P).
      reflexivity.
  Qed.

  Section Two.
    Context (p : path) (m : EngineModel) (en en' : Engine) (input : str).
    Hypothesis Hen : from_path x shape ngrams mx L fo uo f p = Ok en.
    Hypothesis T : twins p m en en'.
    Hypothesis X : externals_ok x L (en_resources en) input.
    Hypothesis Z : sizes_ok x L fo f p m (en_resources en) input.

    Lemma resolve_same slots n : resolve_slots x en input slots n = resolve_slots x en' input slots n.
    Proof.
      destruct T as (_ & _ & (D1 & D2 & D3) & RB & RC & _). unfold resolve_slots. destruct slots as [|s slots]; auto.
      rewrite RB, RC. destruct (rs_builtin _ input _ _ _) as [bes| |]; auto. cbn [bind].
      destruct (rs_custom _ input _ _) as [ces| |]; auto. cbn [bind].
      rewrite (mapM_ext _ (resolve_slot x en' bes ces n)); [reflexivity|]. intros sl _. unfold resolve_slot.
      rewrite (sget_res _ _ _ D2), RB, RC. reflexivity.
    Qed.

    Section Rules.
      Context (name : str) (wl : option (list str)).
      Hypothesis I : In name (em_parsers m).

      Section Patterns.
        Context (dm : DetModel) (dp : DetParser).
        Hypothesis U : rules_at L fo f (pjoin p name) (Patterns dm).
        Hypothesis N : det_new x (ld_lang L) (ld_regex L) (uo (pjoin p name) 0) (uo (pjoin p name) 1) (uo (pjoin p name) 2)
                         dm (en_resources en) = Ok dp.
        Lemma patterns_once : det_keys_once dm.
        Proof. destruct U as [_ (j & _ & Dj)]. exact (det_once _ _ _ Dj). Qed.
        Lemma patterns_res : dp_res dp = en_resources en.
        Proof. apply (det_fields x _ _ _ _ _ _ _ _ N). Qed.
        Lemma patterns_short i sc : In (i, sc) (dp_scopes dp) -> scope_short x dp input sc.
        Proof.
          pose proof (Z _ _ I U) as Fit. cbn [of_reasonable_size] in Fit.
          pose proof (det_fields x _ _ _ _ _ _ _ _ N) as (_ & _ & _ & F4 & _ & F6). intros Hi. rewrite F6 in Hi. apply reorder_In in Hi.
          apply in_map_iff in Hi as ([j decls] & E & Hd). injection E as <- <-.
          split; [exact (proj1 Fit)|]. intros es mapping formatted Ef Re. rewrite F4 in Ef. exact (replace_short _ _ _ _ _ _ Fit Hd _ _ _ Ef Re).
        Qed.
        Lemma patterns_few ms : det_matches x (uo (pjoin p name) 3) dp input wl = Ok ms ->
          at_most_two (fun i => exists slots, understood x L (en_resources en) input wl (Patterns dm) i slots) ->
          countable ms /\ length ms <= 2.
        Proof.
          intros Hm A. pose proof X as (Xt & Xb & Xc & Xg). pose proof (Z _ _ I U) as Fit. cbn [of_reasonable_size understood] in *.
          pose proof (det_fields x _ _ _ _ _ _ _ _ N) as (F1 & _).
          pose proof (det_matches_exact x _ _ _ _ _ dm _ dp N patterns_once Xt (uo (pjoin p name) 3) input Xb Xc Fit wl ms Hm) as Pm.
          split; [eapply det_countable; eauto|].
          destruct Pm as [Nm Pm]. eapply at_most_two_length; [exact Nm| |exact A].
          intros r Hr. apply Pm in Hr as (i & slots & -> & Rec). exists i. split; [reflexivity|]. exists slots, (dp_lang dp). auto.
        Qed.
      End Patterns.

      Section Table.
        Context (lm : LookupModel) (lp : LookupParser).
        Hypothesis U : rules_at L fo f (pjoin p name) (Table lm).
        Hypothesis N : lookup_new (ld_lang L) (uo (pjoin p name) 0) lm (en_resources en) = Ok lp.
        Lemma table_few ms : lookup_matches x (uo (pjoin p name) 3) lp input wl = Ok ms ->
          at_most_two (fun i => exists slots, understood x L (en_resources en) input wl (Table lm) i slots) ->
          countable ms /\ length ms <= 2.
        Proof.
          intros Hm A. pose proof (Z _ _ I U) as Fit. cbn [of_reasonable_size understood] in *. destruct U as [_ Says].
          assert (K : NoDup (map fst (lm_stop_whitelist lm))) by (destruct Says as (j & _ & Dj); exact (lookup_once _ _ _ Dj)).
          assert (LG : ld_lang L (lm_language lm) = Some (lp_lang lp)).
          { pose proof N as N'. clear -N'. unfold lookup_new in N'. destruct (ld_lang L (lm_language lm)) as [l|]; [|discriminate].
            cbn [ok_or bind] in N'. injection N' as <-. reflexivity. }
          split; [eapply matches_countable; eauto|].
          assert (Pm : recognised_matches x (lp_lang lp) lm (en_resources en) input wl ms) by (eapply matches_exact; eauto).
          destruct Pm as (Nm & Pm & _). eapply at_most_two_length; [exact Nm| |exact A].
          intros r Hr. apply Pm in Hr as (i & Ei & Rec & _). exists i. split; [exact Ei|]. exists (pr_slots r), (lp_lang lp). auto.
        Qed.
      End Table.
    End Rules.

    Lemma one_understood r i : at_most_two (fun j => exists slots, understood x L (en_resources en) input (Some [i]) r j slots).
    Proof.
      apply two_of_one with i. intros j (slots & H). destruct r; cbn [understood] in H; destruct H as (l & _ & [[H|[]] _]); auto.
    Qed.

    Lemma twin_parse name ip ip' wl wl' : In name (em_parsers m) -> twin (en_resources en) (pjoin p name) ip ip' -> same_filter wl wl' ->
      (forall r, rules_at L fo f (pjoin p name) r -> at_most_two (fun i => exists slots, understood x L (en_resources en) input wl r i slots)) ->
      both eq (ip_parse ip input wl) (ip_parse ip' input wl').
    Proof.
      intros I W Ff A. pose proof X as (_ & Xb & Xc & _). pose proof (loaded_sets p en Hen) as Ig.
      destruct W as [dm dp dp' U N S|lm lp lp' U N S|c fillers].
      - apply det_parse_same; auto; try (rewrite (patterns_res name dm dp N); assumption).
        + exact (patterns_short name I dm dp U N).
        + intros ms Hm. exact (patterns_few name wl I dm dp U N ms Hm (A _ U)).
      - apply lookup_parse_same; auto. intros ms Hm. exact (table_few name wl I lm lp U N ms Hm (A _ U)).
      - apply both_eq. cbn [ip_parse prob_intent_parser]. unfold prob_parse. cbn [pp_classifier logreg_classifier ic_get_intent].
        rewrite (classifier_filter mx c input wl wl' Ff). reflexivity.
    Qed.
    Lemma twin_slots name ip ip' i : In name (em_parsers m) -> twin (en_resources en) (pjoin p name) ip ip' ->
      both eq (ip_get_slots ip input i) (ip_get_slots ip' input i).
    Proof.
      intros I W. pose proof X as (_ & Xb & Xc & _). pose proof (loaded_sets p en Hen) as Ig.
      destruct W as [dm dp dp' U N S|lm lp lp' U N S|c fillers].
      - apply det_get_slots_same; auto; try (rewrite (patterns_res name dm dp N); assumption).
        + exact (patterns_short name I dm dp U N).
        + intros ms Hm. exact (patterns_few name (Some [i]) I dm dp U N ms Hm (one_understood _ _)).
      - apply lookup_get_slots_same; auto. intros ms Hm. exact (table_few name (Some [i]) I lm lp U N ms Hm (one_understood _ _)).
      - apply both_eq. reflexivity.
    Qed.

    Lemma loop_same wl wl' n : same_filter wl wl' -> hardly_ambiguous x L fo f p m (en_resources en) input wl -> forall sc,
      both eq (parse_loop x en input wl n sc (en_parsers en)) (parse_loop x en' input wl' n sc (en_parsers en')).
    Proof.
      intros Ff A. pose proof T as (_ & _ & _ & _ & _ & names & En & F & Len).
      assert (Sub : forall k, In k names -> In k (em_parsers m)) by (rewrite En; auto).
      clear En. revert Len Sub F. generalize (en_parsers en) (en_parsers en'). intros ps ps'. revert names ps'.
      induction ps as [|ip ps IH]; intros names [|ip' ps'] Len Sub F sc; try discriminate; [reflexivity|].
      simpl in F. inversion F as [|name ? names' ? W F' E1 E2]; subst. cbn [parse_loop].
      eapply both_bind; [apply (twin_parse name ip ip' wl wl'); auto; [apply Sub; left; reflexivity|]|].
      - intros r Hr. apply (A name r); auto. apply Sub. left. reflexivity.
      - intros a b _ _ <-. destruct (ir_name (pr_intent a)).
        + rewrite resolve_same. apply both_eq. reflexivity.
        + apply (IH names'); auto. intros k Hk. apply Sub. right. exact Hk.
    Qed.
    Lemma slots_same i n : both eq (get_slots_with_alternatives x en input i n) (get_slots_with_alternatives x en' input i n).
    Proof.
      unfold get_slots_with_alternatives. pose proof T as (_ & _ & _ & _ & _ & names & En & F & Len).
      assert (Sub : forall k, In k names -> In k (em_parsers m)) by (rewrite En; auto).
      clear En. revert Len Sub F. generalize (en_parsers en) (en_parsers en'). intros ps ps'. revert names ps'.
      induction ps as [|ip ps IH]; intros names [|ip' ps'] Len Sub F; try discriminate; [reflexivity|].
      simpl in F. inversion F as [|name ? names' ? W F' E1 E2]; subst. cbn [get_slots_loop].
      eapply both_bind; [apply (twin_slots name ip ip' i); auto; apply Sub; left; reflexivity|].
      intros a b _ _ <-. destruct a.
      - apply (IH names'); auto. intros k Hk. apply Sub. right. exact Hk.
      - rewrite resolve_same. apply both_eq. reflexivity.
    Qed.
    Lemma parse_same o1 o2 o1' o2' w b n :
      (forall wl, get_intents_whitelist o1 en w b = Ok wl -> hardly_ambiguous x L fo f p m (en_resources en) input wl) ->
      both eq (parse_with_alternatives x o1 o2 en input w b 0 n) (parse_with_alternatives x o1' o2' en' input w b 0 n).
    Proof.
      intros A. unfold parse_with_alternatives. pose proof T as (_ & _ & (_ & _ & D) & _).
      eapply both_bind; [apply (whitelist_same o1 o1'); exact D|]. intros wl wl' W _ Ff.
      eapply both_bind; [apply loop_same; auto|]. intros r r' _ _ <-. reflexivity.
    Qed.
    Lemma extract_same i s n : both eq (extract_slot_with_alternatives x en input i s n) (extract_slot_with_alternatives x en' input i s n).
    Proof.
      apply both_eq. unfold extract_slot_with_alternatives. pose proof T as (_ & _ & (_ & D2 & D3) & RB & RC & _). rewrite RB, RC.
      apply (same_map_get str_eqb str_eqb_spec) with (k := i) in D3. unfold sget at 1 4.
      destruct (hget str_eqb i (ds_slot_name_mappings (en_dataset en))) as [u|];
        destruct (hget str_eqb i (ds_slot_name_mappings (en_dataset en'))) as [u'|]; try contradiction; auto. cbn [ok_or bind].
      rewrite (sget_res _ _ _ D3). destruct (sget s u') as [e|]; auto. cbn [ok_or bind]. rewrite (sget_res _ _ _ D2). reflexivity.
    Qed.
  End Two.
End Engine.
