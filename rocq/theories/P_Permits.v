(** Proofs for C96: parse depends on what its filters permit only. *)
From Coq Require Import String List NArith ZArith Bool Arith Lia.
From Verif Require Import Base Sorting F32 M_Types M_Utils M_Engine M_Det M_Lookup M_Feat M_Prob M_Crf M_Features M_Filler M_Cache
  M_Res M_Fs M_Json M_Load M_Inject S_Base S_Utils S_Det S_Engine S_Rules S_Prob S_Load S_Made S_Narrow S_Intents S_Permits
  P_Base P_Engine P_Utils P_Det P_Rules P_Prob P_Load P_Made P_MatchDet P_Intents.
Import ListNotations.
Local Open Scope nat_scope.

Definition lets (f : option (list str)) (i : str) : bool := match f with Some l => smem i l | None => true end.

Section Parsers.
  Context (x : Ext) (input : str) (f f' : option (list str)).

  Lemma det_agrees lang_of compile o1 o2 o3 m res dp ord : det_new x lang_of compile o1 o2 o3 m res = Ok dp ->
    (forall i, In i (map fst (dm_slots m)) -> lets f i = lets f' i) -> det_parse x ord dp input f = det_parse x ord dp input f'.
  Proof.
    intros New A. destruct (det_fields _ _ _ _ _ _ _ _ _ New) as (_ & _ & Sl & _ & _ & Sc).
    assert (K : forall e, In e (dp_scopes dp) -> In (fst e) (map fst (dm_slots m))).
    { intros e He. rewrite Sc in He. apply reorder_In in He. apply in_map_iff in He as (im & <- & Hi). cbn [fst]. apply in_map. exact Hi. }
    assert (C : forall g, considered dp g = filter (fun e => lets g (fst e)) (dp_scopes dp)).
    { intros g. unfold considered. cbv zeta. apply filter_ext_in. intros e He. destruct g as [l|]; [reflexivity|]. cbn [lets].
      apply smem_spec. unfold hkeys. rewrite Sl. exact (K e He). }
    assert (E : considered dp f = considered dp f').
    { rewrite !C. apply filter_ext_in. intros e He. exact (A _ (K e He)). }
    unfold det_parse, det_parse_top, det_matches. rewrite E. reflexivity.
  Qed.

  Lemma mapM_ext_in {A B} (g h : A -> outcome B) l : (forall a, In a l -> g a = h a) -> mapM g l = mapM h l.
  Proof.
    induction l as [|a l IH]; intros E; cbn [mapM]; [reflexivity|]. rewrite (E a (or_introl eq_refl)), IH; [reflexivity|].
    intros b Hb. apply E. right. exact Hb.
  Qed.

  Lemma lookup_agrees lang_of o m res lp ord : lookup_new lang_of o m res = Ok lp ->
    (forall i, In i (lm_intents_names m) \/ (exists g, In g (lm_scopes m) /\ In i (gs_intents g)) -> lets f i = lets f' i) ->
    lookup_parse x ord lp input f = lookup_parse x ord lp input f'.
  Proof.
    intros New A. assert (P : lp_scopes lp = lm_scopes m /\ lp_intents_names lp = lm_intents_names m).
    { unfold lookup_new in New. bind_inv New. inv New. auto. }
    destruct P as [Sc Nm].
    assert (C : get_candidates x lp input f = get_candidates x lp input f').
    { unfold get_candidates. rewrite (mapM_ext_in (group_candidates x lp input f) (group_candidates x lp input f')); [reflexivity|].
      intros g Hg. rewrite Sc in Hg. unfold group_candidates.
      assert (E : allowed_group f (gs_intents g) = allowed_group f' (gs_intents g)).
      { unfold allowed_group. apply filter_ext_in. intros i Hi. apply A. right. eauto. }
      rewrite E. reflexivity. }
    unfold lookup_parse, lookup_parse_top, lookup_matches. rewrite C. destruct (get_candidates x lp input f') as [cs|e|]; [|reflexivity|reflexivity].
    cbn [bind]. rewrite (mapM_ext_in (lookup_candidate x lp input f) (lookup_candidate x lp input f')); [reflexivity|].
    intros c _. unfold lookup_candidate. destruct (hget _ _ _) as [out|]; [|reflexivity]. unfold parse_map_output.
    destruct (index_i32 (lp_intents_names lp) (fst out)) as [nm|e|] eqn:Ei; [|reflexivity|reflexivity]. cbn [bind].
    assert (Hn : In nm (lm_intents_names m)).
    { rewrite <- Nm. unfold index_i32, index in Ei. destruct (_ <? _)%Z; [discriminate|].
      destruct (nth_error _ _) eqn:En; inv Ei. eapply nth_error_In. exact En. }
    pose proof (A nm (or_introl Hn)) as E. unfold lets in E. rewrite E. reflexivity.
  Qed.

  Lemma classifier_agrees mx c : (forall i, In (Some i) (cl_intents c) -> lets f i = lets f' i) ->
    cl_get_intent mx c input f = cl_get_intent mx c input f'.
  Proof.
    intros A. unfold cl_get_intent, get_intents_with_whitelist. destruct (_ <=? 1); [reflexivity|]. cbv zeta.
    destruct input as [|ch rest]; [reflexivity|]. destruct (cl_featurizer c) as [t|]; [|reflexivity]. destruct (cl_logreg c) as [lr|]; [|reflexivity].
    destruct (t (ch :: rest)) as [fs|e|]; [|reflexivity|reflexivity]. cbn [bind].
    destruct (logreg_run mx lr fs) as [ss|e|]; [|reflexivity|reflexivity]. cbn [bind].
    match goal with |- bind (sort_desc _ ?a) _ = bind (sort_desc _ ?b) _ => replace a with b; [reflexivity|] end.
    apply filter_ext_in. intros r Hr. apply in_map_iff in Hr as ([i s] & <- & Hi). cbn [fst snd ir_name]. apply in_combine_l in Hi.
    destruct i as [i|]; [|reflexivity]. symmetry. exact (A i Hi).
  Qed.

  Lemma prob_agrees o mx c fillers : (forall i, In (Some i) (cl_intents c) -> lets f i = lets f' i) ->
    prob_parse (prob_new o (logreg_classifier mx c) fillers) input f = prob_parse (prob_new o (logreg_classifier mx c) fillers) input f'.
  Proof.
    intros A. unfold prob_parse. cbn [pp_classifier prob_new ic_get_intent logreg_classifier]. rewrite (classifier_agrees mx c A). reflexivity.
  Qed.
End Parsers.

Section Loaded.
  Context (x : Ext) (shape : str -> str) (ngrams : list str -> nat -> list str) (mx : Math) (L : Loader)
          (fo : path -> orders) (uo : path -> nat -> HashOrder) (fl : fs) (p : path) (en : Engine)
          (H : from_path x shape ngrams mx L fo uo fl p = Ok en).

  Lemma parser_agrees input f f' ip : (forall i, engine_mentions L fo fl p i -> lets f i = lets f' i) -> In ip (en_parsers en) ->
    ip_parse ip input f = ip_parse ip input f'.
  Proof.
    intros A Hip. assert (H' := H). apply engine_iff in H' as (_ & _ & m & M & _ & F). destruct (Forall2_In_r _ _ _ _ F Hip) as (name & Hn & At).
    assert (A' : forall i, parser_mentions L fo fl (pjoin p name) i -> lets f i = lets f' i).
    { intros i Hi. apply A. exists m, name. auto. }
    destruct At as [(U & dm & dp & Dm & Dn & ->)|[(U & lm & lp & Lm & Ln & ->)|(U & entries & c & fillers & Pm & Uc & Cl & Ff & ->)]].
    - apply (det_agrees x input f f' _ _ _ _ _ dm _ dp _ Dn). intros i Hi. apply A'. left. exists dm. split; [exact (conj U Dm)|right; exact Hi].
    - apply (lookup_agrees x input f f' _ _ lm _ lp _ Ln). intros i Hi. apply A'. right. left. exists lm. split; [exact (conj U Lm)|exact Hi].
    - destruct Cl as (cm & Says & In_ & _). apply (prob_agrees input f f'). intros i Hi. rewrite In_ in Hi. apply A'. right. right. exists cm.
      split; [exact (conj U Says)|exact Hi].
  Qed.

  Lemma loop_agrees input f f' salts : (forall i, engine_mentions L fo fl p i -> lets f i = lets f' i) ->
    forall ps sc, (forall ip, In ip ps -> In ip (en_parsers en)) -> parse_loop x en input f salts sc ps = parse_loop x en input f' salts sc ps.
  Proof.
    intros A. induction ps as [|ip ps IH]; intros sc S; cbn [parse_loop]; [reflexivity|].
    rewrite (parser_agrees input f f' ip A (S ip (or_introl eq_refl))). destruct (ip_parse ip input f') as [r|e|]; [|reflexivity|reflexivity].
    cbn [bind]. destruct (ir_name (pr_intent r)); [reflexivity|]. apply IH. intros q Hq. apply S. right. exact Hq.
  Qed.

  Lemma listed_mentioned o input l r i : get_intents o en input = Ok l -> In r l -> ir_name r = Some i -> engine_mentions L fo fl p i.
  Proof.
    intros G Hr N. assert (H' := H). apply engine_iff in H' as (_ & _ & m & M & _ & _).
    destruct (intents_listed x shape ngrams mx L fo uo fl p en m input H M o l r G Hr) as (name & Hn & Pl). rewrite N in Pl.
    exists m, name. split; [exact M|]. split; [exact Hn|]. destruct Pl as [(r0 & R & Li)|(cm & C & Li)].
    - specialize (Li i eq_refl). destruct r0 as [dm|lm]; [left|right; left].
      + exists dm. split; [exact R|left; exact Li].
      + exists lm. split; [exact R|left; exact Li].
    - right. right. exists cm. split; [exact C|]. destruct Li as [Li|[_ Li]]; [exact Li|discriminate].
  Qed.

  Lemma lets_permits o w b f i : get_intents_whitelist o en w b = Ok f -> (lets f i = true <-> permits en w b i).
  Proof.
    intros E. destruct (whitelist_ok_known _ _ _ _ _ E) as [Kw Kb]. destruct (whitelist_ok o en w b Kw Kb) as (g & E' & N & S).
    assert (g = f) by congruence. subst g. unfold permits. destruct f as [l|]; cbn [lets].
    - rewrite smem_spec, (S l eq_refl). split; [right; assumption|]. intros [[-> ->]|Q]; [|exact Q]. exfalso.
      assert (Nn : Some l = None) by (apply N; auto). discriminate.
    - split; [|reflexivity]. intros _. left. apply N. reflexivity.
  Qed.

  Lemma filters_agree o1 o1' o2 input w b w' b' n salts :
    names_known en w -> names_known en b -> names_known en w' -> names_known en b' ->
    (forall i, engine_mentions L fo fl p i -> (permits en w b i <-> permits en w' b' i)) ->
    parse_with_alternatives x o1 o2 en input w b n salts = parse_with_alternatives x o1' o2 en input w' b' n salts.
  Proof.
    intros Kw Kb Kw' Kb' P. unfold parse_with_alternatives.
    destruct (whitelist_ok o1 en w b Kw Kb) as (f & E & _). destruct (whitelist_ok o1' en w' b' Kw' Kb') as (f' & E' & _).
    rewrite E, E'. cbn [bind].
    assert (A : forall i, engine_mentions L fo fl p i -> lets f i = lets f' i).
    { intros i Hi. specialize (P i Hi). rewrite <- (lets_permits _ _ _ _ i E), <- (lets_permits _ _ _ _ i E') in P.
      destruct (lets f i), (lets f' i); try reflexivity; destruct P as [P1 P2]; [specialize (P1 eq_refl)|specialize (P2 eq_refl)]; congruence. }
    rewrite (loop_agrees input f f' salts A (en_parsers en) f0 (fun _ Q => Q)).
    destruct (parse_loop x en input f' salts f0 (en_parsers en)) as [r|e|]; [|reflexivity|reflexivity]. cbn [bind].
    destruct (n =? 0); [reflexivity|]. destruct (get_intents o2 en input) as [l|e|] eqn:G; [|reflexivity|reflexivity]. cbn [bind].
    replace (filter (passes_filter f) l) with (filter (passes_filter f') l); [reflexivity|].
    apply filter_ext_in. intros r0 Hr. unfold passes_filter. destruct (ir_name r0) as [i|] eqn:N; [|reflexivity].
    pose proof (A i (listed_mentioned o2 input l r0 i G Hr N)) as Q. unfold lets in Q. destruct f, f'; congruence.
  Qed.

  (** Filters that permit every intent. *)
  Lemma neutral o1 o1' o2 input w b n salts :
    names_known en w -> (forall i, engine_mentions L fo fl p i -> known en i) ->
    (forall l i, w = Some l -> known en i -> In i l) -> (b = None \/ b = Some []) ->
    parse_with_alternatives x o1 o2 en input w b n salts = parse_with_alternatives x o1' o2 en input None None n salts.
  Proof.
    intros Kw D Cw Cb.
    assert (Z : names_known en None) by (intros l i E; discriminate E).
    apply filters_agree; [exact Kw| |exact Z|exact Z|].
    - destruct Cb as [->| ->]; [exact Z|]. intros l i E Hi. injection E as <-. destruct Hi.
    - intros i Hi. specialize (D i Hi). split; intros _; [left; auto|]. right. split; [exact D|]. split.
      + intros l El. exact (Cw l i El D).
      + intros l El. destruct Cb as [->| ->]; [discriminate|]. injection El as <-. auto.
  Qed.
End Loaded.
