(** Proofs for C95: a complete engine answers. *)
From Coq Require Import String List NArith ZArith Bool Arith Lia.
From Verif Require Import Base Sorting F32 M_Types M_Utils M_Engine M_Det M_Lookup M_Feat M_Prob M_Crf M_Features M_Filler M_Cache
  M_Res M_Fs M_Json M_Load M_Inject S_Base S_Utils S_Det S_Engine S_Rules S_Feat S_Crf S_Filler S_Prob S_Load S_Match S_Inject S_Answer S_Made
  S_Rank S_Narrow S_Intents S_Declared S_Safe S_Complete
  P_Base P_Engine P_Utils P_Det P_Rules P_Prob P_Feat P_Crf P_Features P_Filler P_Load P_Answer P_Made P_MatchDet P_Narrow P_Intents P_Safe P_Declared.
Import ListNotations.
Local Open Scope nat_scope.

(** ** Calls that return no error *)
Definition no_error {A} (o : outcome A) : Prop := forall e, o <> Err e.

Lemma no_error_bind {A B} (m : outcome A) (k : A -> outcome B) :
  no_error m -> (forall a, m = Ok a -> no_error (k a)) -> no_error (bind m k).
Proof. intros Hm Hk e. destruct m; cbn [bind]; [apply Hk; reflexivity|exfalso; exact (Hm e0 eq_refl)|discriminate]. Qed.
Lemma no_error_ok {A} (a : A) : no_error (Ok a).
Proof. intros e. discriminate. Qed.
Lemma no_error_mapM {A B} (f : A -> outcome B) l : (forall a, In a l -> no_error (f a)) -> no_error (mapM f l).
Proof. intros H. exact (mapM_no_err f l H). Qed.
Lemma no_error_index {A} (l : list A) i : no_error (index l i).
Proof. unfold index. intros e. destruct (nth_error l i); discriminate. Qed.
Lemma no_error_usub a b : no_error (usub a b).
Proof. unfold usub. intros e. destruct (_ <=? _); discriminate. Qed.
Lemma no_error_sort {A} (s : A -> f32) l : no_error (sort_desc s l).
Proof. unfold sort_desc. intros e. destruct (_ && _); discriminate. Qed.
Lemma no_error_slice {A} (l : list A) a b : no_error (slice l a b).
Proof. unfold slice. intros e. destruct (_ && _); discriminate. Qed.
Lemma no_error_sindex {V} k (m : list (str * V)) : no_error (sindex k m).
Proof. unfold sindex. intros e. destruct (sget k m); discriminate. Qed.
Lemma no_error_byte_slice s r : no_error (byte_slice s r).
Proof. unfold byte_slice. intros e. destruct (boundary s _); [|discriminate]. destruct (boundary s _); [|discriminate]. destruct (_ <=? _); discriminate. Qed.
Lemma no_error_update {A} (g : A -> A) : forall i l, no_error (update_at g i l).
Proof.
  intros i l. revert i. induction l as [|a l IH]; intros [|i]; cbn [update_at]; try (intros e; discriminate).
  apply no_error_bind; [apply IH|]. intros; apply no_error_ok.
Qed.
Lemma no_error_fold {A B} (g : outcome A -> B -> outcome A) l :
  (forall acc b, In b l -> no_error acc -> no_error (g acc b)) -> forall acc, no_error acc -> no_error (fold_left g l acc).
Proof.
  induction l as [|b l IH]; intros H acc Ha; cbn [fold_left]; [exact Ha|].
  apply IH; [intros a b' I; apply H; right; exact I|]. apply H; [left; reflexivity|exact Ha].
Qed.
Lemma no_error_answer {A} (o : outcome A) : o <> Panic -> no_error o -> exists a, o = Ok a.
Proof. intros P N. destruct o as [a|e|]; [eauto|exfalso; exact (N e eq_refl)|contradiction]. Qed.
Lemma no_error_some {A} e (o : option A) : (exists a, o = Some a) -> no_error (ok_or e o).
Proof. intros (a & ->) e'. discriminate. Qed.
Lemma sget_some {V} k (m : list (str * V)) : In k (map fst m) -> exists v, sget k m = Some v.
Proof.
  intros H. destruct (sget k m) as [v|] eqn:E; [eauto|]. exfalso. unfold sget in E.
  induction m as [|[k' v] m IH]; [destruct H|]. cbn [hget] in E. destruct (str_eqb k k') eqn:K; [discriminate|].
  destruct H as [H|H]; [cbn [fst] in H; subst; rewrite (proj2 (str_eqb_spec k k) eq_refl) in K; discriminate|]. exact (IH H E).
Qed.

Ltac calm := repeat first
  [ apply no_error_ok | apply no_error_index | apply no_error_usub | apply no_error_sort | apply no_error_slice | apply no_error_sindex
  | apply no_error_byte_slice | apply no_error_update
  | apply no_error_bind; [|intros ? ?] ].

(** A parser that answers, with slots of known entities, and can look for the slots of some intents. *)
Definition answering (K : str -> Prop) (known : str -> Prop) (input : str) (p : IntentParser) : Prop :=
  (forall f, no_error (ip_parse p input f)) /\
  no_error (ip_get_intents p input) /\
  (forall i, known i -> no_error (ip_get_slots p input i)) /\
  parser_saying (fun _ _ e => K e) input p.

Section Analysis.
  Context (x : Ext) (res : Resources) (input : str)
    (HB : forall s f u n, no_error (rs_builtin res s f u n)) (HC : forall s f n, no_error (rs_custom res s f n)).

  (** ** Engines *)
  Section Engine.
    Context (en : Engine) (Hr : en_resources en = res) (known : str -> Prop).
    Notation K := (known_entity x (en_dataset en)).
    Context (Hp : forall p, In p (en_parsers en) -> answering K known input p).

    Lemma resolve_answers i slots alts : saying (fun _ _ e => K e) i slots -> no_error (resolve_slots x en input slots alts).
    Proof.
      intros S. unfold resolve_slots. destruct slots as [|s0 rest] eqn:Es; [apply no_error_ok|]. rewrite <- Es in *. rewrite Hr.
      apply no_error_bind; [apply HB|]. intros bes _. apply no_error_bind; [apply HC|]. intros ces _.
      apply no_error_bind; [|intros; apply no_error_ok]. apply no_error_mapM. intros s Hs. unfold resolve_slot. rewrite Hr.
      destruct (sget (is_entity s) _) as [ext|] eqn:G.
      - unfold resolve_custom_slot. apply no_error_bind; [|intros; apply no_error_ok]. destruct (find _ _); [apply no_error_ok|].
        apply no_error_bind; [apply HC|intros; apply no_error_ok].
      - unfold resolve_builtin_slot. destruct (S s Hs) as [D|D].
        { destruct (sget_some _ _ D) as (v & E). congruence. }
        apply no_error_bind; [apply no_error_some; exact D|]. intros k _. apply no_error_bind; [|intros; apply no_error_ok].
        destruct (find _ _); [apply no_error_ok|]. apply no_error_bind; [apply HB|intros; apply no_error_ok].
    Qed.

    Lemma parse_loop_answers wl salts : forall ps sc, (forall p, In p ps -> answering K known input p) ->
      no_error (parse_loop x en input wl salts sc ps).
    Proof.
      induction ps as [|p ps IH]; intros sc S; cbn [parse_loop]; [apply no_error_ok|].
      destruct (S p (or_introl eq_refl)) as (P1 & _ & _ & P4 & _).
      apply no_error_bind; [apply P1|]. intros r Er. destruct (ir_name (pr_intent r)) as [i|] eqn:N.
      - apply no_error_bind; [|intros; apply no_error_ok]. exact (resolve_answers i _ _ (P4 _ _ _ Er N)).
      - apply IH. intros q Hq. apply S. right. exact Hq.
    Qed.

    Lemma slots_loop_answers i salts : known i -> forall ps, (forall p, In p ps -> answering K known input p) ->
      no_error (get_slots_loop x en input i salts ps).
    Proof.
      intros Ki. induction ps as [|p ps IH]; intros S; cbn [get_slots_loop]; [apply no_error_ok|].
      destruct (S p (or_introl eq_refl)) as (_ & _ & P3 & _ & P5).
      apply no_error_bind; [apply P3; exact Ki|]. intros l El. destruct l as [|s l0] eqn:E.
      - apply IH. intros q Hq. apply S. right. exact Hq.
      - rewrite <- E in *. exact (resolve_answers i _ _ (P5 _ _ El)).
    Qed.

    Lemma get_intents_answers ord : no_error (get_intents ord en input).
    Proof.
      unfold get_intents. apply no_error_bind; [|intros; apply no_error_sort].
      assert (G : forall ps m, (forall p, In p ps -> answering K known input p) -> no_error (merge_intents input ps m)).
      { induction ps as [|p ps IH]; intros m S; cbn [merge_intents]; [apply no_error_ok|].
        apply no_error_bind; [apply (S p (or_introl eq_refl))|]. intros l _. apply IH. intros q Hq. apply S. right. exact Hq. }
      apply G. exact Hp.
    Qed.

    Lemma get_slots_answers i salts : known i -> no_error (get_slots_with_alternatives x en input i salts).
    Proof. intros Ki. apply slots_loop_answers; [exact Ki|exact Hp]. Qed.

    Lemma parse_answers o1 o2 w b n salts : names_known en w -> names_known en b ->
      (n = 0 \/ forall l r i, get_intents o2 en input = Ok l -> In r l -> ir_name r = Some i -> known i) ->
      no_error (parse_with_alternatives x o1 o2 en input w b n salts).
    Proof.
      intros Kw Kb Kn. unfold parse_with_alternatives.
      apply no_error_bind. { intros e He. apply (proj1 (whitelist_err_iff o1 en w b)); [eauto|auto]. }
      intros wl _. apply no_error_bind; [apply parse_loop_answers, Hp|]. intros r _.
      destruct (Nat.eqb_spec n 0) as [->|Nz]; [apply no_error_ok|]. destruct Kn as [Kn|Kn]; [contradiction|].
      apply no_error_bind; [apply get_intents_answers|]. intros l El. apply no_error_bind; [|intros; apply no_error_ok].
      apply no_error_mapM. intros a Ha. unfold alternative_of. apply no_error_bind; [|intros; apply no_error_ok].
      destruct (ir_name a) as [i|] eqn:N; [|apply no_error_ok]. apply get_slots_answers. apply (Kn l a i El); [|exact N].
      assert (Q : forall k (q : list IntentResult) z, In z (firstn k q) -> In z q).
      { intros k q z Hz. rewrite <- (firstn_skipn k q). apply in_or_app. left. exact Hz. }
      apply Q in Ha. destruct (filter (passes_filter wl) l) as [|h t] eqn:F; [destruct Ha|]. cbn [skipn] in Ha.
      assert (Ht : In a (h :: t)) by (right; exact Ha). rewrite <- F in Ht. apply filter_In in Ht. tauto.
    Qed.

    Lemma extract_answers i name e salts : declares (en_dataset en) i name e -> K e ->
      no_error (extract_slot_with_alternatives x en input i name salts).
    Proof.
      intros (mp & M1 & M2) Ke. unfold extract_slot_with_alternatives. rewrite M1. cbn [ok_or bind]. rewrite M2. cbn [ok_or bind]. rewrite Hr.
      destruct (sget e _) as [ext|] eqn:G.
      - unfold extract_custom_slot. apply no_error_bind; [apply HC|intros; apply no_error_ok].
      - unfold extract_builtin_slot. destruct Ke as [D|D]; [destruct (sget_some _ _ D) as (v & E); congruence|].
        apply no_error_bind; [apply no_error_some; exact D|]. intros k _. apply no_error_bind; [apply HB|intros; apply no_error_ok].
    Qed.
  End Engine.

  Lemma rank_answers n ms : no_error (rank_results n ms).
  Proof. unfold rank_results. cbv zeta. calm. Qed.

  (** ** Patterns *)
  Section Det.
    Context (lang_of : str -> option lang) (compile : str -> outcome Regex) (o1 o2 o3 : HashOrder) (m : DetModel) (dp : DetParser)
      (New : det_new x lang_of compile o1 o2 o3 m res = Ok dp) (d : DatasetMetadata) (Comp : patterns_complete x d m).

    Lemma regex_keys i : In i (map fst (dm_patterns m)) -> In i (hkeys (dp_regexes dp)).
    Proof.
      intros H. destruct (det_fields _ _ _ _ _ _ _ _ _ New) as (_ & _ & _ & _ & (rx & Ec & Er) & _).
      rewrite <- (compile_keys _ _ _ Ec) in H. apply in_map_iff in H as (e & <- & He). unfold hkeys. apply in_map. rewrite Er.
      apply reorder_In. exact He.
    Qed.

    Lemma preprocess_answers s i : no_error (det_preprocess x dp s i).
    Proof.
      unfold det_preprocess. cbv zeta. apply no_error_bind; [|intros st _; calm].
      apply no_error_fold; [|apply no_error_ok]. intros acc b _ Ha. unfold preprocess_step. apply no_error_bind; [exact Ha|]. intros st _.
      cbv zeta. calm.
    Qed.

    Lemma matching_answers s r i mp : no_error (get_matching_result x dp input s r i mp).
    Proof.
      unfold get_matching_result. destruct (r s); [|apply no_error_ok]. apply no_error_bind; [|intros; apply no_error_ok].
      apply no_error_mapM. intros g _. unfold slot_of_group. cbv zeta. calm.
    Qed.

    Lemma first_match_answers cl clf i mp : forall rs, no_error (first_match x dp input cl clf i mp rs).
    Proof.
      induction rs as [|r rs IH]; cbn [first_match]; [apply no_error_ok|].
      apply no_error_bind; [apply matching_answers|]. intros [q|] _; [apply no_error_ok|].
      apply no_error_bind; [apply matching_answers|]. intros [q|] _; [apply no_error_ok|exact IH].
    Qed.

    Lemma det_top_answers ord n f : no_error (det_parse_top x ord dp input n f).
    Proof.
      destruct (det_fields _ _ _ _ _ _ _ _ _ New) as (_ & _ & _ & Rs & _ & Sc).
      unfold det_parse_top. apply no_error_bind; [|intros; apply rank_answers]. unfold det_matches.
      apply no_error_bind; [|intros; apply no_error_ok]. apply no_error_mapM. intros [i sc] Hi. unfold considered in Hi. cbv zeta in Hi.
      apply filter_In in Hi as [Hi _]. rewrite Sc in Hi. apply reorder_In in Hi. apply in_map_iff in Hi as ([i' decls] & Ei & Hi).
      injection Ei as -> _. destruct (Comp i decls Hi) as [Pt _]. cbn [fst snd].
      unfold match_intent. rewrite Rs. apply no_error_bind; [apply HB|]. intros bes _. apply no_error_bind; [apply HC|]. intros ces _. cbv zeta.
      destruct (replace_entities input _ _) as [mapping formatted].
      apply no_error_bind; [apply preprocess_answers|]. intros c1 _. apply no_error_bind; [apply preprocess_answers|]. intros c2 _.
      apply no_error_bind; [|intros; apply first_match_answers]. apply no_error_some. apply sget_some. exact (regex_keys i Pt).
    Qed.

    Lemma det_answers ord : answering (known_entity x d) (fun i => In i (map fst (dm_patterns m))) input (det_intent_parser x ord dp).
    Proof.
      assert (P : forall f, no_error (det_parse x ord dp input f)).
      { intros f. unfold det_parse. apply no_error_bind; [apply det_top_answers|intros; apply no_error_ok]. }
      split; [exact P|]. split; [|split]; cbn [det_intent_parser ip_get_intents ip_get_slots].
      - unfold det_get_intents. apply no_error_bind; [apply det_top_answers|intros; apply no_error_ok].
      - intros i Hi. unfold det_get_slots. rewrite (proj2 (smem_spec _ _) (regex_keys i Hi)).
        apply no_error_bind; [apply P|intros; apply no_error_ok].
      - apply det_saying. destruct (det_fields _ _ _ _ _ _ _ _ _ New) as (_ & _ & Sl & _). rewrite Sl.
        intros i decls n e H1 H2. exact (proj2 (Comp i decls H1) n e H2).
    Qed.
  End Det.

  (** ** Lookup tables *)
  Section Lookup.
    Context (SB : forall s ks u n es e, rs_builtin res s (Some ks) u n = Ok es -> In e es -> In (be_kind e) ks)
      (SC : forall s ns n es e, rs_custom res s (Some ns) n = Ok es -> In e es -> In (ce_entity e) ns)
      (BN : builtin_names x).
    Context (lang_of : str -> option lang) (o : HashOrder) (m : LookupModel) (lp : LookupParser)
      (New : lookup_new lang_of o m res = Ok lp) (d : DatasetMetadata) (Comp : table_complete x d m).

    Lemma lookup_parts_of : lp_res lp = res /\ lp_scopes lp = lm_scopes m /\ lp_intents_names lp = lm_intents_names m.
    Proof. assert (N := New). unfold lookup_new in N. bind_inv N. inv N. auto. Qed.

    Lemma lookup_top_answers ord n f : no_error (lookup_parse_top x ord lp input n f).
    Proof.
      destruct lookup_parts_of as (Rs & Sc & _).
      unfold lookup_parse_top. apply no_error_bind; [|intros; apply rank_answers]. unfold lookup_matches.
      apply no_error_bind.
      - unfold get_candidates. apply no_error_bind; [|intros; apply no_error_ok]. apply no_error_mapM. intros g Hg. rewrite Sc in Hg.
        unfold group_candidates. destruct (allowed_group f (gs_intents g)); [apply no_error_ok|].
        apply no_error_bind; [|intros; apply no_error_ok]. unfold get_all_entities. rewrite Rs.
        apply no_error_bind; [apply no_error_mapM; intros e He; apply no_error_some; exact (proj1 (Comp g Hg) e He)|]. intros ks _.
        apply no_error_bind; [apply HB|]. intros bes _. apply no_error_bind; [apply HC|intros; apply no_error_ok].
      - intros cands _. apply no_error_bind; [|intros; apply no_error_ok]. apply no_error_mapM. intros c _. unfold lookup_candidate.
        destruct (hget _ _ _) as [out|]; [|apply no_error_ok]. unfold parse_map_output.
        apply no_error_bind; [intros e; apply index_i32_no_err|]. intros nm _.
        destruct (match f with Some l => smem nm l | None => true end); [|apply no_error_ok].
        apply no_error_bind; [|intros; apply no_error_ok]. apply no_error_mapM. intros se _.
        apply no_error_bind; [intros e; apply index_i32_no_err|intros; apply no_error_ok].
    Qed.

    Lemma detected_known e : detected x res (lm_scopes m) input e -> known_entity x d (me_name e).
    Proof.
      intros (g & kinds & es & Hg & F & (bes & ces & Eb & Ec & ->) & He). cbn [fst snd] in *.
      destruct (Comp g Hg) as [C1 C2]. apply in_app_or in He as [He|He].
      - apply in_map_iff in He as (b & <- & Hb). cbn [matched_of_builtin me_name]. right.
        destruct (Forall2_In_r _ _ _ _ F (SB _ _ _ _ _ _ Eb Hb)) as (id & _ & Hid). exists (be_kind b). exact (BN _ _ Hid).
      - apply in_map_iff in He as (c & <- & Hc). cbn [matched_of_custom me_name]. apply C2. exact (SC _ _ _ _ _ Ec Hc).
    Qed.

    Lemma lookup_answers ord : answering (known_entity x d) (fun i => In i (lm_intents_names m)) input (lookup_intent_parser x ord lp).
    Proof.
      destruct lookup_parts_of as (Rs & Sc & Nm).
      assert (P : forall f, no_error (lookup_parse x ord lp input f)).
      { intros f. unfold lookup_parse. apply no_error_bind; [apply lookup_top_answers|intros; apply no_error_ok]. }
      assert (S : forall f r s, lookup_parse x ord lp input f = Ok r -> In s (pr_slots r) -> known_entity x d (is_entity s)).
      { intros f r s H Hs. destruct (lookup_slots_spec _ _ _ _ _ _ H) as [_ Q]. destruct (Q s Hs) as (_ & _ & e & De & _ & ->).
        rewrite Rs, Sc in De. exact (detected_known e De). }
      split; [exact P|]. split; [|split]; cbn [lookup_intent_parser ip_get_intents ip_get_slots].
      - unfold lookup_get_intents. apply no_error_bind; [apply lookup_top_answers|intros; apply no_error_ok].
      - intros i Hi. unfold lookup_get_slots. rewrite Nm. rewrite (proj2 (smem_spec _ _) Hi). apply no_error_bind; [apply P|intros; apply no_error_ok].
      - split; cbn [lookup_intent_parser ip_parse ip_get_slots].
        + intros f r i H _ s Hs. exact (S f r s H Hs).
        + intros i l H. unfold lookup_get_slots in H. destruct (smem _ _); [|discriminate]. bind_inv H. inv H.
          intros s Hs. exact (S _ _ s E Hs).
    Qed.
  End Lookup.

  (** ** Classifiers *)
  Lemma featurize_answers ngrams lang_of o1 o2 fz :
    (exists m, tfidf_new x lang_of m res = Ok (fz_tfidf fz)) ->
    (forall cv, fz_cooc fz = Some cv -> exists m, cooc_new x lang_of m res = Ok cv) ->
    no_error (featurize x ngrams o1 o2 fz input).
  Proof.
    intros (m & New) C. apply tfidf_new_spec in New as (_ & _ & _ & _ & Rs & _). unfold featurize. apply no_error_bind.
    - unfold tfidf_transform. apply no_error_bind.
      + unfold tfidf_words. cbv zeta. rewrite Rs. apply no_error_bind; [apply HB|]. intros bes _. apply no_error_bind; [apply HC|intros; apply no_error_ok].
      + intros words _. apply no_error_bind; [unfold vocabulary_size; intros e; destruct (tv_vocab _); discriminate|]. intros size _. cbv zeta.
        apply no_error_bind.
        { unfold count_words. apply no_error_fold; [|apply no_error_ok]. intros acc i _ Ha. apply no_error_bind; [exact Ha|intros; apply no_error_update]. }
        intros cs _. apply no_error_bind; [|intros; apply no_error_ok]. unfold apply_idf.
        apply no_error_fold; [|apply no_error_ok]. intros acc i _ Ha. apply no_error_bind; [exact Ha|]. intros fs _.
        apply no_error_bind; [apply no_error_index|intros; apply no_error_update].
    - intros fs _. destruct (fz_cooc fz) as [cv|]; [|apply no_error_ok]. destruct (C cv eq_refl) as (cm & NewC).
      assert (Rc : cv_res cv = res) by (unfold cooc_new in NewC; bind_inv NewC; bind_inv NewC; inv NewC; reflexivity).
      apply no_error_bind; [|intros; apply no_error_ok]. unfold cooc_transform. apply no_error_bind.
      + unfold cooc_tokens. rewrite Rc. apply no_error_bind; [apply HB|]. intros bes _. apply no_error_bind; [apply HC|intros; apply no_error_ok].
      + intros toks _. unfold mark_pairs. apply no_error_fold; [|apply no_error_ok]. intros acc p _ Ha. apply no_error_bind; [exact Ha|].
        intros v _. destruct (hget _ _ _); [apply no_error_update|apply no_error_ok].
  Qed.

  Lemma classifier_answers mx c wl :
    (forall t, cl_featurizer c = Some t -> no_error (t input)) ->
    (forall t lr fs, cl_featurizer c = Some t -> cl_logreg c = Some lr -> t input = Ok fs -> length fs = length (lr_rows lr) - 1) ->
    no_error (get_intents_with_whitelist mx c input wl).
  Proof.
    intros F Sz. unfold get_intents_with_whitelist. destruct (_ <=? 1); [apply no_error_ok|]. cbv zeta.
    destruct input as [|ch rest] eqn:Ei; [apply no_error_sort|]. rewrite <- Ei in *.
    destruct (cl_featurizer c) as [t|] eqn:Ef; [|apply no_error_sort]. destruct (cl_logreg c) as [lr|] eqn:El; [|apply no_error_sort].
    apply no_error_bind; [exact (F t eq_refl)|]. intros fs Efs. apply no_error_bind; [|intros; apply no_error_sort].
    unfold logreg_run. rewrite (Sz t lr fs eq_refl eq_refl Efs), Nat.eqb_refl. apply no_error_ok.
  Qed.

  (** ** Slot fillers *)
  Lemma prefix_answers i ix sc : no_error (get_scheme_prefix i ix sc).
  Proof.
    unfold get_scheme_prefix. destruct sc; [apply no_error_ok|calm|]. destruct (_ =? 1); [apply no_error_ok|].
    apply no_error_bind; [apply no_error_index|]. intros a _. destruct (i =? a); [apply no_error_ok|]. calm.
  Qed.
  Lemma entity_prefix_answers sc toks i rs : no_error (entity_prefix sc toks i rs).
  Proof.
    unfold entity_prefix. apply no_error_bind; [apply no_error_index|]. intros t _. destruct (find _ _); [|apply no_error_ok]. cbv zeta.
    apply no_error_bind; [apply prefix_answers|intros; apply no_error_ok].
  Qed.
  Lemma initial_answers toks : no_error (initial_string_from_tokens toks).
  Proof. unfold initial_string_from_tokens. calm. Qed.

  Lemma feature_answers shape f fos fo toks i : get_features x shape f res = Ok fos -> In fo fos -> no_error (ft_compute (fo_feature fo) toks i).
  Proof.
    intros H Hin. unfold get_features in H.
    match type of H with (let* fs := ?m in _) = _ => destruct m as [fs|e|] eqn:E; cbn [bind] in H; try discriminate end.
    injection H as <-. apply in_map_iff in Hin. destruct Hin as (ft & <- & Hin). cbn [fo_feature].
    repeat match type of E with (if ?c then _ else _) = _ => destruct c end; try discriminate.
    - injection E as <-. destruct Hin as [<-|[]]. cbn [ft_compute is_digit_feature]. calm.
    - injection E as <-. destruct Hin as [<-|[]]. cbn [ft_compute length_feature]. calm.
    - injection E as <-. destruct Hin as [<-|[]]. cbn [ft_compute is_first_feature]. calm.
    - injection E as <-. destruct Hin as [<-|[]]. cbn [ft_compute is_last_feature]. calm.
    - unfold build_ngram in E. do 5 bind_inv E. injection E as <-. destruct Hin as [<-|[]]. cbn [ft_compute ngram_feature].
      destruct (_ <? _); calm.
    - unfold build_shape_ngram in E. bind_inv E. injection E as <-. destruct Hin as [<-|[]]. cbn [ft_compute shape_ngram_feature]. cbv zeta.
      destruct (_ && _); calm.
    - unfold build_prefix in E. bind_inv E. injection E as <-. destruct Hin as [<-|[]]. cbn [ft_compute prefix_feature]. calm.
    - unfold build_suffix in E. bind_inv E. injection E as <-. destruct Hin as [<-|[]]. cbn [ft_compute suffix_feature]. cbv zeta. calm.
    - unfold build_entity_match in E. do 5 bind_inv E. injection E as <-.
      apply in_map_iff in Hin. destruct Hin as (en & <- & _). cbn [ft_compute entity_match_feature]. cbv zeta.
      apply no_error_bind; [apply initial_answers|]. intros s _. apply no_error_bind; [apply HC|intros; apply entity_prefix_answers].
    - unfold build_builtin_match in E. bind_inv E. bind_inv E. bind_inv E.
      destruct (P_Rules.mapM_In _ _ _ ft E Hin) as (l & _ & Hl). bind_inv Hl. injection Hl as <-. cbn [ft_compute builtin_match_feature].
      apply no_error_bind; [apply initial_answers|]. intros s _. apply no_error_bind; [apply HB|intros; apply entity_prefix_answers].
    - unfold build_word_cluster in E. bind_inv E. bind_inv E. injection E as <-. destruct Hin as [<-|[]]. cbn [ft_compute word_cluster_feature]. calm.
  Qed.

  Lemma features_answer shape factories p toks : processor_new x shape factories res = Ok p -> no_error (compute_features p toks).
  Proof.
    intros Hp. unfold compute_features. apply no_error_fold; [|apply no_error_ok]. intros acc fo Hfo Ha.
    apply no_error_fold; [|exact Ha]. intros acc' i _ Ha'. unfold push_feature. apply no_error_bind; [exact Ha'|]. intros fs _.
    destruct (processor_parts _ _ _ _ _ _ Hp Hfo) as (g & fos & _ & F2 & F3).
    apply no_error_bind; [exact (feature_answers _ _ _ _ _ _ F2 F3)|]. intros [v|] _; [|apply no_error_ok].
    apply no_error_fold; [|apply no_error_ok]. intros acc'' o _ Ha''. unfold push_offset. apply no_error_bind; [exact Ha''|]. intros q _. cbv zeta.
    destruct (_ && _)%Z; [apply no_error_update|apply no_error_ok].
  Qed.

  (** The name of a slot comes from a tag other than O. *)
  Lemma loop_answers toks st en : (forall i, no_error (st i)) -> (forall i, no_error (en i)) ->
    forall rest c i, no_error (tags_loop toks st en c i rest).
  Proof.
    intros S E. induction rest as [|t rest IH]; intros c i; cbn [tags_loop]; [apply no_error_ok|].
    apply no_error_bind; [apply S|]. intros s _. cbv zeta. apply no_error_bind; [apply E|]. intros [|] _; [|apply IH].
    apply no_error_bind; [apply no_error_index|]. intros a _. apply no_error_bind; [apply no_error_index|]. intros b _. cbv zeta.
    apply no_error_bind; [apply IH|intros; apply no_error_ok].
  Qed.
  Lemma loop_names toks st (en : nat -> outcome bool) tags :
    (forall i t, nth_error tags i = Some t -> en i = Ok true -> t <> $"O") ->
    forall rest pre c out, tags = pre ++ rest -> tags_loop toks st en c (length pre) rest = Ok out ->
    forall r, In r out -> exists t, In t tags /\ t <> $"O" /\ sr_name r = tag_name_to_slot_name t.
  Proof.
    intros En. induction rest as [|t rest IH]; intros pre c out Et H r Hr; cbn [tags_loop] in H.
    - inv H. destruct Hr.
    - assert (Nt : nth_error tags (length pre) = Some t).
      { rewrite Et, nth_error_app2, Nat.sub_diag by lia. reflexivity. }
      assert (Et' : tags = (pre ++ [t]) ++ rest) by (rewrite <- app_assoc; exact Et).
      assert (Lp : length pre + 1 = length (pre ++ [t])) by (rewrite app_length; reflexivity).
      bind_inv H. cbv zeta in H. bind_inv H. rewrite Lp in H. destruct a0.
      + bind_inv H. bind_inv H. bind_inv H. inv H. destruct Hr as [<-|Hr].
        * exists t. split; [eapply nth_error_In; exact Nt|]. split; [exact (En _ _ Nt E0)|reflexivity].
        * exact (IH _ _ _ Et' E3 r Hr).
      + exact (IH _ _ _ Et' H r Hr).
  Qed.

  Lemma outside_false t : negb (is_outside t) = true -> t <> $"O".
  Proof. intros H E. subst t. discriminate. Qed.
  Lemma tagging_answers toks tags sc : no_error (tags_to_slot_ranges toks tags sc).
  Proof.
    unfold tags_to_slot_ranges. destruct sc; apply loop_answers; intros i.
    1: unfold is_start_of_io_slot. 2: unfold is_end_of_io_slot. 3: unfold is_start_of_bio_slot. 4: unfold is_end_of_bio_slot.
    5: unfold is_start_of_bilou_slot. 6: unfold is_end_of_bilou_slot.
    all: apply no_error_bind; [apply no_error_index|intros t _].
    all: repeat match goal with |- no_error (if ?c then _ else _) => destruct c end; calm.
    all: repeat match goal with |- no_error (if ?c then _ else _) => destruct c end; calm.
  Qed.
  Lemma tagging_names toks tags sc out r : tags_to_slot_ranges toks tags sc = Ok out -> In r out ->
    exists t, In t tags /\ t <> $"O" /\ sr_name r = tag_name_to_slot_name t.
  Proof.
    unfold tags_to_slot_ranges. intros H.
    destruct sc; (eapply loop_names with (pre := []) (rest := tags); [|reflexivity|exact H]); intros i t Nt En.
    1: unfold is_end_of_io_slot in En. 2: unfold is_end_of_bio_slot in En. 3: unfold is_end_of_bilou_slot in En.
    all: unfold index in En; rewrite Nt in En; cbn [bind] in En.
    all: destruct (i + 1 =? length tags); [injection En as En; apply outside_false; exact En|].
    all: destruct (is_outside t) eqn:O; [discriminate|]; intros ->; discriminate O.
  Qed.

  Lemma filler_answers shape lang_of L f d dir sm cf :
    (forall p t, ld_tagger L f p = Ok t -> forall fs, no_error (tg_tag t fs)) ->
    crf_new x shape lang_of (fun name => ld_tagger L f (pjoin dir name)) sm res = Ok cf ->
    filler_complete x L f d dir sm -> no_error (crf_get_slots x cf false input).
  Proof.
    intros Tg New [_ Lab]. pose proof (crf_mapping _ _ _ _ _ _ _ New) as Mp. unfold crf_get_slots. rewrite Mp.
    unfold crf_new in New. bind_inv New. bind_inv New. bind_inv New. injection New as <-. cbn [cf_tagger cf_processor cf_lang cf_scheme].
    destruct (sm_crf_file sm) as [file|] eqn:Fi; [|injection E0 as <-; apply no_error_ok].
    bind_inv E0. bind_inv E0. injection E0 as <-. cbn [fst snd].
    destruct (x_tokenize x _ input) as [|t r] eqn:Et; [apply no_error_ok|]. rewrite <- Et.
    match goal with H : processor_new _ _ _ _ = Ok ?p |- _ => pose proof (fun toks => features_answer _ _ p toks H) as Fe end.
    apply no_error_bind; [apply Fe|]. intros fs _. apply no_error_bind; [eapply Tg; eassumption|]. intros raw Er.
    assert (Dl : forall l, In l raw -> label_declared sm l) by (intros l Hl; exact (Lab file _ _ _ l eq_refl E2 Er Hl)).
    apply no_error_bind; [apply no_error_mapM; intros l Hl; destruct (Dl l Hl) as (tag & -> & _); apply no_error_ok|].
    intros tags Ed. unfold tags_to_slots. apply no_error_bind; [apply tagging_answers|]. intros ranges Eg.
    apply no_error_mapM. intros s Hs. apply no_error_bind; [apply no_error_byte_slice|]. intros v _.
    apply no_error_bind; [|intros; apply no_error_ok]. apply no_error_some.
    destruct (tagging_names _ _ _ _ _ Eg Hs) as (tag & Ht & No & ->). destruct (P_Rules.mapM_In _ _ _ _ Ed Ht) as (l & Hl & El).
    destruct (Dl l Hl) as (tag' & El' & [->|(c & c' & slot & -> & Hslot)]).
    - exfalso. apply No. congruence.
    - assert (tag = c :: c' :: slot) by congruence. subst tag. apply sget_some. exact Hslot.
  Qed.

  (** ** Probabilistic parsers *)
  Lemma prob_answers (K : str -> Prop) mx c o fillers :
    (forall wl, no_error (get_intents_with_whitelist mx c input wl)) ->
    (forall i, In (Some i) (cl_intents c) -> In i (map fst fillers)) ->
    (forall i sf, In (i, sf) fillers -> no_error (sf input) /\ forall l, sf input = Ok l -> saying (fun _ _ e => K e) i l) ->
    answering K (fun i => In i (map fst fillers)) input (prob_intent_parser (prob_new o (logreg_classifier mx c) fillers)).
  Proof.
    intros C1 C2 G.
    assert (Gi : forall i, In i (map fst fillers) -> exists sf, sget i (pp_fillers (prob_new o (logreg_classifier mx c) fillers)) = Some sf).
    { intros i Hi. rewrite prob_fillers. apply sget_some. rewrite map_rev. apply -> in_rev. exact Hi. }
    assert (Gs : forall i sf, sget i (pp_fillers (prob_new o (logreg_classifier mx c) fillers)) = Some sf -> no_error (sf input)).
    { intros i sf H. rewrite prob_fillers in H. apply own_filler_spec in H as (b & a & -> & _).
      apply (G i sf). apply in_or_app. right. left. reflexivity. }
    split; [|split; [|split]]; cbn [prob_intent_parser ip_parse ip_get_intents ip_get_slots].
    - intros f. unfold prob_parse. cbn [pp_classifier prob_new ic_get_intent logreg_classifier].
      apply no_error_bind; [unfold cl_get_intent; apply no_error_bind; [apply C1|intros; apply no_error_ok]|]. intros r Er.
      apply no_error_bind; [|intros; apply no_error_ok]. destruct (ir_name r) as [i|] eqn:N; [|apply no_error_ok].
      assert (Hi : In i (map fst fillers)).
      { unfold cl_get_intent in Er. bind_inv Er. injection Er as Er. destruct a as [|r0 a0]; [subst r; discriminate|]. subst r0.
        destruct (classifier_classes mx c input f _ r E (or_introl eq_refl)) as [Hc|[_ Hc]].
        - rewrite N in Hc. exact (C2 i Hc).
        - congruence. }
      destruct (Gi i Hi) as (sf & Es). unfold prob_new in Es |- *. cbn [pp_fillers] in Es |- *. rewrite Es. cbn [ok_or bind].
      apply (Gs i sf). exact Es.
    - unfold prob_get_intents. cbn [pp_classifier prob_new ic_get_intents logreg_classifier]. apply C1.
    - intros i Hi. unfold prob_get_slots. destruct (Gi i Hi) as (sf & Es). rewrite Es. cbn [ok_or bind]. exact (Gs i sf Es).
    - apply prob_saying. intros i sf slots Hin Hs. exact (proj2 (G i sf Hin) slots Hs).
  Qed.
End Analysis.

(** ** Numbers of features *)
Lemma fold_length {A B} (g : outcome (list A) -> B -> outcome (list A)) (n : nat) :
  (forall b e, g (Err e) b = Err e) -> (forall b, g Panic b = Panic) ->
  (forall l b l', length l = n -> g (Ok l) b = Ok l' -> length l' = n) ->
  forall bs l l', length l = n -> fold_left g bs (Ok l) = Ok l' -> length l' = n.
Proof.
  intros Ge Gp G. induction bs as [|b bs IH]; intros l l' Hl H; cbn [fold_left] in H; [inv H; reflexivity|].
  destruct (g (Ok l) b) as [l1|e|] eqn:E.
  - exact (IH l1 l' (G _ _ _ Hl E) H).
  - exfalso. clear - Ge H. induction bs; cbn [fold_left] in H; [discriminate|]. rewrite Ge in H. auto.
  - exfalso. clear - Gp H. induction bs; cbn [fold_left] in H; [discriminate|]. rewrite Gp in H. auto.
Qed.
Lemma update_length {A} (g : A -> A) : forall i l l', update_at g i l = Ok l' -> length l' = length l.
Proof.
  intros i l. revert i. induction l as [|a l IH]; intros [|i] l' H; cbn [update_at] in H; try discriminate; [inv H; reflexivity|].
  bind_inv H. inv H. cbn [length]. f_equal. exact (IH _ _ E).
Qed.

Lemma tfidf_length x ngrams o tv input fs n : largest_index (tv_vocab tv) n -> tfidf_transform x ngrams o tv input = Ok fs -> length fs = S n.
Proof.
  intros (Hw & Hm) H. unfold tfidf_transform in H. bind_inv H. bind_inv H. bind_inv H. bind_inv H. inv H.
  pose proof (vocabulary_size_spec (tv_vocab tv)) as V. rewrite E0 in V. destruct V as (i & -> & (w & Hi) & Mi).
  assert (i = n) by (destruct Hw as (w' & Hw'); specialize (Hm _ _ Hi); specialize (Mi _ _ Hw'); lia). subst i.
  unfold l2_normalize. cbv zeta. rewrite map_length.
  assert (L1 : length a1 = S n).
  { unfold count_words in E1. eapply (fold_length _ (S n)) with (l := repeat f0 (S n)); [| | | |exact E1]; try reflexivity.
    - intros l b l' Hl Hu. cbn [bind] in Hu. rewrite (update_length _ _ _ _ Hu). exact Hl.
    - apply repeat_length. }
  unfold apply_idf in E2. eapply (fold_length _ (S n)) with (l := a1); [| | |exact L1|exact E2]; try reflexivity.
  intros l b l' Hl Hu. cbn [bind] in Hu. bind_inv Hu. rewrite (update_length _ _ _ _ Hu). exact Hl.
Qed.

Lemma cooc_length x lang_of m res cv o input fs : cooc_new x lang_of m res = Ok cv -> good_pairs (cm_pairs m) ->
  cooc_transform x o cv input = Ok fs -> length fs = length (cm_pairs m).
Proof.
  intros New G H. destruct (cooc_new_pairs _ _ _ _ _ New) as [P _]. rewrite (good_pairs_id _ G) in P.
  unfold cooc_transform in H. bind_inv H. unfold mark_pairs in H.
  assert (Lp : length (cv_pairs cv) = length (cm_pairs m)) by (rewrite P; apply map_length). rewrite Lp in H.
  eapply (fold_length _ (length (cm_pairs m))) with (l := repeat f0 (length (cm_pairs m))); [| | | |exact H]; try reflexivity.
  - intros l b l' Hl Hu. cbn [bind] in Hu. destruct (hget _ _ _); [rewrite (update_length _ _ _ _ Hu); exact Hl|inv Hu; exact Hl].
  - apply repeat_length.
Qed.

(** ** Loaded engines *)
Section Loaded.
  Context (x : Ext) (shape : str -> str) (ngrams : list str -> nat -> list str) (mx : Math) (L : Loader)
          (fo : path -> orders) (uo : path -> nat -> HashOrder) (f : fs).
  Context (Lib : libraries_answer L f) (Ask : finds_what_is_asked L f) (BN : builtin_names x) (Sound : sound_files L fo f).

  Lemma loaded_libraries p en : from_path x shape ngrams mx L fo uo f p = Ok en ->
    (forall s k u n, no_error (rs_builtin (en_resources en) s k u n)) /\
    (forall s k n, no_error (rs_custom (en_resources en) s k n)) /\
    (forall s ks u n es e, rs_builtin (en_resources en) s (Some ks) u n = Ok es -> In e es -> In (be_kind e) ks) /\
    (forall s ns n es e, rs_custom (en_resources en) s (Some ns) n = Ok es -> In e es -> In (ce_entity e) ns).
  Proof.
    intros H. destruct (entity_parsers _ _ _ _ _ _ _ _ _ _ H) as (m & b & cm & l & gaz & _ & B & Rb & _ & _ & G & Rc).
    destruct Lib as (L1 & L2 & _), Ask as (A1 & A2). split; [|split; [|split]].
    - intros s k u n e. rewrite Rb. exact (L1 _ _ B _ _ _ e).
    - intros s k n. rewrite Rc. unfold custom_entities, custom_extract. apply no_error_bind; [exact (L2 _ _ G _ _ _)|]. intros es _.
      apply no_error_mapM. intros e _. apply no_error_bind; [|intros; apply no_error_ok]. unfold remap. calm.
    - intros s ks u n es e Es. rewrite Rb in Es. exact (A1 _ _ B _ _ _ _ _ Es).
    - intros s ns n es e Es He. rewrite Rc in Es. unfold custom_entities, custom_extract in Es. bind_inv Es.
      destruct (P_Rules.mapM_In _ _ _ _ Es He) as (e' & He' & Ee). bind_inv Ee. inv Ee. cbn [ce_entity].
      exact (A2 _ _ G _ _ _ _ _ E He').
  Qed.

  Lemma sound_at {A} p name (d : orders -> decoder A) a : file_says L fo f p name d a ->
    exists j, json_at L f (pjoin p name) j /\ d (fo (pjoin p name)) j = Ok a.
  Proof. intros H. exact H. Qed.

  Section Parser.
    Context (res : Resources) (input : str) (d : DatasetMetadata) (p : path) (ip : IntentParser)
      (HB : forall s k u n, no_error (rs_builtin res s k u n)) (HC : forall s k n, no_error (rs_custom res s k n))
      (SB : forall s ks u n es e, rs_builtin res s (Some ks) u n = Ok es -> In e es -> In (be_kind e) ks)
      (SC : forall s ns n es e, rs_custom res s (Some ns) n = Ok es -> In e es -> In (ce_entity e) ns)
      (At : parser_at x shape ngrams mx L fo uo f res p ip) (Comp : parser_complete x L fo f d p).

    Lemma classifier_at_answers c cm wl : classifier_at x ngrams L fo uo f res (pjoin p $"intent_classifier") c ->
      file_says L fo f (pjoin p $"intent_classifier") $"intent_classifier.json" (fun _ => d_classifier (ld_f32 L)) cm ->
      regression_fits L fo f (pjoin p $"intent_classifier") cm ->
      no_error (get_intents_with_whitelist mx c input wl).
    Proof.
      intros (cm' & Says & _ & Fz & Lr) Says' Fit. assert (cm' = cm) by exact (says_fun _ _ _ _ _ _ _ _ Says Says'). subst cm'.
      apply classifier_answers.
      - intros t Et. destruct (clm_featurizer cm) as [name|]; [|congruence]. destruct Fz as (fz & (fm & _ & (tm & _ & Tn) & Cn) & Ec).
        rewrite Ec in Et. injection Et as <-. apply (featurize_answers x res input HB HC ngrams (ld_lang L)); [eauto|].
        intros cv Ecv. destruct (snd fm) as [nm|]; [|congruence]. destruct Cn as (c' & Ec' & (cmo & _ & Nw)). rewrite Ec' in Ecv. injection Ecv as <-. eauto.
      - intros t lr fs Et El Efs. destruct (clm_featurizer cm) as [name|] eqn:Fn; [|congruence].
        destruct Fz as (fz & ((tf, co) & Fm & (tm & Tm & Tn) & Cn) & Ec). cbn [fst snd] in Tm, Cn. rewrite Ec in Et. injection Et as <-.
        destruct (clm_intercept cm) as [ic|]; [|congruence]. destruct (clm_coeffs cm) as [co'|] eqn:Cf; [|congruence].
        destruct Lr as (lr' & Ln & El'). rewrite El' in El. injection El as ->.
        pose proof (logreg_new_spec ic co') as Ls. rewrite Ln in Ls. destruct Ls as ((first & rest & -> & _) & _ & Len & _). cbn [hd] in Len.
        rewrite Len. cbn [Nat.sub]. rewrite Nat.sub_0_r.
        apply tfidf_new_spec in Tn as (_ & _ & Vo & _).
        unfold featurize in Efs. bind_inv Efs. rename a into v.
        assert (Hn : exists n, largest_index (tv_vocab (fz_tfidf fz)) n).
        { assert (E' := E). unfold tfidf_transform in E'. bind_inv E'. bind_inv E'. pose proof (vocabulary_size_spec (tv_vocab (fz_tfidf fz))) as V.
          rewrite E1 in V. destruct V as (i & _ & V). eauto. }
        destruct Hn as (n & Hn). pose proof (tfidf_length _ _ _ _ _ _ _ Hn E) as Lv. rewrite Vo in Hn.
        pose proof (Fit name tf co tm n (first :: rest) first Fn Cf (or_introl eq_refl) Fm Tm Hn) as Fi.
        destruct co as [nm|].
        + destruct Cn as (cv & Ecv & (pm & Pm & Nw)). rewrite Ecv in Efs. bind_inv Efs. inv Efs.
          destruct (sound_at _ _ _ _ Pm) as (j & Hj & Dj). pose proof (proj1 (proj2 (Sound _ _ Hj)) _ Dj) as G.
          rewrite app_length, Lv, (cooc_length _ _ _ _ _ _ _ _ Nw G E0), (Fi pm Pm). lia.
        + rewrite Cn in Efs. inv Efs. lia.
    Qed.

    Lemma parser_answers : answering (known_entity x d) (parser_knows L fo f p) input ip.
    Proof.
      destruct Comp as (C1 & C2 & C3).
      assert (W : forall (k : str -> Prop), (forall i, parser_knows L fo f p i -> k i) -> answering (known_entity x d) k input ip ->
                  answering (known_entity x d) (parser_knows L fo f p) input ip).
      { intros k Hk (P1 & P2 & P3 & P4). split; [exact P1|]. split; [exact P2|]. split; [|exact P4]. intros i Hi. apply P3, Hk, Hi. }
      destruct At as [(U & dm & dp & Dm & Dn & ->)|[(U & lm & lp & Lm & Ln & ->)|(U & entries & c & fillers & Pm & Uc & Cl & Ff & ->)]].
      - apply (W (fun i => In i (map fst (dm_patterns dm)))); [intros i [K _]; exact (K (Patterns dm) (conj U Dm))|].
        exact (det_answers x res input HB HC _ _ _ _ _ dm dp Dn d (C1 dm (conj U Dm)) _).
      - apply (W (fun i => In i (lm_intents_names lm))); [intros i [K _]; exact (K (Table lm) (conj U Lm))|].
        exact (lookup_answers x res input HB HC SB SC BN _ _ lm lp Ln d (C2 lm (conj U Lm)) _).
      - destruct (C3 entries (conj U Pm)) as [F1 F2].
        assert (Keys : map fst fillers = map fst entries).
        { clear - Ff. induction Ff as [|e g es gs [E _] _ IH]; cbn [map]; [reflexivity|]. rewrite E, IH. reflexivity. }
        apply (W (fun i => In i (map fst fillers))); [intros i [_ K]; rewrite Keys; exact (K entries (conj U Pm))|].
        assert (Cl' := Cl). destruct Cl' as (cm & Says & In_ & _). destruct (F2 cm (conj U Says)) as [Fd Rf].
        apply prob_answers.
        + intros wl. exact (classifier_at_answers c cm wl Cl Says Rf).
        + intros i Hi. rewrite Keys. apply Fd. rewrite <- In_. exact Hi.
        + intros i sf Hin. destruct (Forall2_In_r _ _ _ _ Ff Hin) as ([i' dir] & He & Ei & Uf & sm & cf & Sm & Cn & Eg).
          cbn [fst snd] in *. subst i' sf. pose proof (F1 i dir sm He Sm) as Fc. split.
          * apply (filler_answers x res input HB HC shape (ld_lang L) L f d (pjoin p dir) sm cf); [|exact Cn|exact Fc].
            intros q t Ht. exact (proj2 (proj2 Lib) q t Ht).
          * intros l Hl s Hs. apply (proj1 Fc (is_slot_name s)). rewrite <- (crf_mapping _ _ _ _ _ _ _ Cn). exact (filler_saying _ _ _ _ Hl s Hs).
    Qed.
  End Parser.

  Section Engine.
    Context (p : path) (en : Engine) (input : str) (H : from_path x shape ngrams mx L fo uo f p = Ok en)
      (Comp : engine_complete x L fo f p) (Ext_ok : externals_behave x mx L f) (Lim : texts_below_limit x (en_resources en) input).

    Lemma loaded_answering ip : In ip (en_parsers en) ->
      answering (known_entity x (en_dataset en)) (known_everywhere L fo f p) input ip.
    Proof.
      intros Hip. destruct (loaded_libraries p en H) as (HB & HC & SB & SC).
      assert (H' := H). apply engine_iff in H' as (_ & _ & m & M & Ed & F). rewrite Ed.
      destruct (Forall2_In_r _ _ _ _ F Hip) as (name & Hn & At).
      destruct (parser_answers (en_resources en) input (em_dataset m) (pjoin p name) ip HB HC SB SC At (Comp m name M Hn)) as (P1 & P2 & P3 & P4).
      split; [exact P1|]. split; [exact P2|]. split; [|exact P4]. intros i Hi. apply P3. exact (Hi m name M Hn).
    Qed.

    Lemma complete_get_intents o : exists l, get_intents o en input = Ok l.
    Proof.
      destruct (loaded_never_panics x shape ngrams mx L fo uo f Ext_ok Sound p en input H Lim) as (_ & N & _).
      apply no_error_answer; [apply N|]. exact (get_intents_answers x input en _ loaded_answering o).
    Qed.

    Lemma complete_get_slots i salts : known_everywhere L fo f p i -> exists slots, get_slots_with_alternatives x en input i salts = Ok slots.
    Proof.
      intros K. destruct (loaded_libraries p en H) as (HB & HC & _).
      destruct (loaded_never_panics x shape ngrams mx L fo uo f Ext_ok Sound p en input H Lim) as (_ & _ & N & _).
      apply no_error_answer; [apply N|]. exact (get_slots_answers x _ input HB HC en eq_refl _ loaded_answering i salts K).
    Qed.

    Lemma complete_parse o1 o2 w b n salts : names_known en w -> names_known en b -> n = 0 \/ intents_shared L fo f p ->
      exists r, parse_with_alternatives x o1 o2 en input w b n salts = Ok r.
    Proof.
      intros Kw Kb Sh. destruct (loaded_libraries p en H) as (HB & HC & _).
      destruct (loaded_never_panics x shape ngrams mx L fo uo f Ext_ok Sound p en input H Lim) as (N & _).
      apply no_error_answer; [apply N|]. apply (parse_answers x _ input HB HC en eq_refl _ loaded_answering); [exact Kw|exact Kb|].
      destruct Sh as [->|Sh]; [left; reflexivity|right]. intros l r i El Hr Nr.
      assert (H' := H). apply engine_iff in H' as (_ & _ & m & M & Ed & F).
      destruct (intents_listed x shape ngrams mx L fo uo f p en m input H M o2 l r El Hr) as (name & Hn & Pl). rewrite Nr in Pl.
      exact (Sh m name i M Hn Pl).
    Qed.

    Lemma complete_extract i name e salts : declares (en_dataset en) i name e -> known_entity x (en_dataset en) e ->
      exists o, extract_slot_with_alternatives x en input i name salts = Ok o.
    Proof.
      intros D K. destruct (loaded_libraries p en H) as (HB & HC & _).
      destruct (loaded_never_panics x shape ngrams mx L fo uo f Ext_ok Sound p en input H Lim) as (_ & _ & _ & N).
      apply no_error_answer; [apply N|]. exact (extract_answers x _ input HB HC en eq_refl i name e salts D K).
    Qed.
  End Engine.
End Loaded.
