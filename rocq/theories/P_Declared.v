(** Proofs for C93: the slots of an answer are declared. *)
From Coq Require Import String List NArith ZArith Bool Arith Lia.
From Verif Require Import Base F32 M_Types M_Utils M_Engine M_Det M_Lookup M_Feat M_Prob M_Crf M_Features M_Filler M_Cache
  M_Res M_Fs M_Json M_Load M_Inject S_Base S_Utils S_Det S_Engine S_Rules S_Crf S_Filler S_Prob S_Load S_Match S_Inject S_Answer S_Made
  S_Rank S_Declared P_Base P_Engine P_Utils P_Det P_Rules P_Prob P_Crf P_Filler P_Load P_Answer P_Made.
Import ListNotations.
Local Open Scope nat_scope.

(** What a parser says about the slots it finds. *)
Definition saying (D : str -> str -> str -> Prop) (i : str) (l : list InternalSlot) : Prop :=
  forall s, In s l -> D i (is_slot_name s) (is_entity s).
Definition parser_saying (D : str -> str -> str -> Prop) (input : str) (p : IntentParser) : Prop :=
  (forall f r i, ip_parse p input f = Ok r -> ir_name (pr_intent r) = Some i -> saying D i (pr_slots r)) /\
  (forall i l, ip_get_slots p input i = Ok l -> saying D i l).

Lemma det_saying (D : str -> str -> str -> Prop) x ord dp input :
  (forall i decls n e, In (i, decls) (dp_slots dp) -> In (n, e) decls -> D i n e) ->
  parser_saying D input (det_intent_parser x ord dp).
Proof.
  intros A.
  assert (P : forall f r i, det_parse x ord dp input f = Ok r -> ir_name (pr_intent r) = Some i -> saying D i (pr_slots r)).
  { intros f r i H N s Hs. destruct (det_slots_declared _ _ _ _ _ _ H) as [_ Q].
    destruct (Q s Hs) as (j & Nj & _ & decls & H1 & H2). assert (i = j) as -> by congruence. exact (A _ _ _ _ H1 H2). }
  split; [exact P|]. cbn [det_intent_parser ip_get_slots]. intros i l H. unfold det_get_slots in H.
  destruct (smem _ _); [|discriminate]. bind_inv H. inv H.
  destruct (ir_name (pr_intent a)) as [j|] eqn:N.
  - assert (Hj : In j [i]) by (eapply (det_honours x ord dp); [exact E|exact N]). destruct Hj as [<-|[]].
    exact (P _ _ _ E N).
  - intros s Hs. destruct (det_slots_declared _ _ _ _ _ _ E) as [_ Q]. destruct (Q s Hs) as (j & Nj & _). congruence.
Qed.

Lemma index_at {A} (l : list A) id a : index_i32 l id = Ok a -> at_id l id a.
Proof.
  unfold index_i32, index, at_id. destruct (Z.ltb_spec id 0); [discriminate|].
  destruct (nth_error l (Z.to_nat id)); [|discriminate]. intros E. inv E. auto.
Qed.

Lemma candidate_entry x lp input f c m i : lookup_candidate x lp input f c = Ok (Some m) -> ir_name (pr_intent m) = Some i ->
  exists h id ids, In (h, (id, ids)) (lp_map lp) /\ at_id (lp_intents_names lp) id i /\
    forall s, In s (pr_slots m) -> exists k, In k ids /\ at_id (lp_slots_names lp) k (is_slot_name s).
Proof.
  unfold lookup_candidate. destruct (hget _ _ _) as [[id ids]|] eqn:G; [|discriminate].
  apply hget_In in G; [|intros; apply Z.eqb_eq]. unfold parse_map_output. intros H N.
  bind_inv H. destruct (match f with Some l => smem a l | None => true end); [|discriminate].
  bind_inv H. inv H. cbn [pr_slots pr_intent ir_name fst snd] in *. inv N.
  exists (x_hash x (fst c)), id, ids. split; [exact G|]. split; [apply index_at; exact E|].
  intros s Hs. destruct (P_Rules.mapM_In _ _ _ _ E0 Hs) as ([k e] & Hin & Hs'). bind_inv Hs'. inv Hs'.
  exists k. split; [eapply in_combine_l; exact Hin|]. apply index_at. exact E1.
Qed.

Lemma lookup_saying (D : str -> str -> Prop) x ord lp input :
  (forall h id ids k i n, In (h, (id, ids)) (lp_map lp) -> at_id (lp_intents_names lp) id i ->
     In k ids -> at_id (lp_slots_names lp) k n -> D i n) ->
  parser_saying (fun i n _ => D i n) input (lookup_intent_parser x ord lp).
Proof.
  intros A.
  assert (P : forall f r i, lookup_parse x ord lp input f = Ok r -> ir_name (pr_intent r) = Some i ->
                saying (fun i n _ => D i n) i (pr_slots r)).
  { intros f r i H N s Hs. destruct (lookup_parse_from _ _ _ _ _ _ _ H N) as (ms & m & Hm & Hin & ->). cbn [scored pr_slots] in Hs.
    destruct (lookup_matches_spec _ _ _ _ _ _ Hm) as (rs & Hr & _ & Sub & _).
    destruct (candidate_results_In _ _ _ _ _ _ Hr (Sub m Hin)) as (cands & c & Ec & Hc & Em).
    destruct (candidate_entry _ _ _ _ _ _ _ Em N) as (h & id & ids & H1 & H2 & H3).
    destruct (H3 s Hs) as (k & H4 & H5). exact (A _ _ _ _ _ _ H1 H2 H4 H5). }
  split; [exact P|]. cbn [lookup_intent_parser ip_get_slots]. intros i l H. unfold lookup_get_slots in H.
  destruct (smem _ _); [|discriminate]. bind_inv H. inv H.
  destruct (ir_name (pr_intent a)) as [j|] eqn:N.
  - assert (Hj : In j [i]) by (eapply (lookup_honours x ord lp); [exact E|exact N]). destruct Hj as [<-|[]].
    exact (P _ _ _ E N).
  - rewrite (lookup_parse_none _ _ _ _ _ _ E N). intros s [].
Qed.

Lemma prob_saying (D : str -> str -> str -> Prop) o ic fillers input :
  (forall i sf slots, In (i, sf) fillers -> sf input = Ok slots -> saying D i slots) ->
  parser_saying D input (prob_intent_parser (prob_new o ic fillers)).
Proof.
  intros G.
  assert (Gs : forall i sf slots, sget i (pp_fillers (prob_new o ic fillers)) = Some sf -> sf input = Ok slots -> saying D i slots).
  { intros i sf slots H. rewrite prob_fillers in H. apply own_filler_spec in H as (b & a & -> & _).
    apply G with (i := i). apply in_or_app. right. left. reflexivity. }
  split; cbn [prob_intent_parser ip_parse ip_get_slots].
  - intros f r i H N. unfold prob_parse in H. bind_inv H. bind_inv H. inv H. cbn [pr_slots pr_intent] in *.
    rewrite N in E0. bind_inv E0.
    destruct (sget i _) as [sf|] eqn:Es; [|discriminate]. inv E1. eapply Gs; eassumption.
  - intros i l H. unfold prob_get_slots in H. bind_inv H.
    destruct (sget i _) as [sf|] eqn:Es; [|discriminate]. inv E. eapply Gs; eassumption.
Qed.

(** The slots of a filler are in its mapping. *)
Lemma filler_saying x cf text slots : crf_get_slots x cf false text = Ok slots ->
  forall s, In s slots -> In (is_slot_name s, is_entity s) (cf_mapping cf).
Proof.
  unfold crf_get_slots. destruct (cf_tagger cf); [|intros E; inv E; intros s []].
  destruct (cf_processor cf); [|intros E; inv E; intros s []].
  destruct (x_tokenize _ _ _); [intros E; inv E; intros s []|]. intros H. bind_inv H. bind_inv H. bind_inv H.
  unfold tags_to_slots in H. bind_inv H. intros s Hs. destruct (P_Rules.mapM_In _ _ _ _ H Hs) as (r & _ & B).
  bind_inv B. bind_inv B. inv B. cbn [is_slot_name is_entity].
  destruct (sget (sr_name r) (cf_mapping cf)) eqn:Em; [|discriminate]. inv E4. eapply hget_In; [exact str_eqb_spec|exact Em].
Qed.

Lemma crf_mapping x shape lang_of lt m res cf : crf_new x shape lang_of lt m res = Ok cf -> cf_mapping cf = sm_mapping m.
Proof. unfold crf_new. intros H. bind_inv H. bind_inv H. bind_inv H. inv H. reflexivity. Qed.

(** ** The answers of an engine *)
Section Engine.
  Context (D : str -> str -> str -> Prop) (x : Ext) (en : Engine) (input : str)
          (G : forall p, In p (en_parsers en) -> parser_saying D input p).

  (** A resolved slot that is said, and whose entity is known. *)
  Definition said (i : str) (s : Slot) : Prop :=
    D i (sl_slot_name s) (sl_entity s) /\
    (custom_slot en s \/ exists k, x_kind_of_identifier x (sl_entity s) = Some k).

  Lemma resolve_said i slots alts out : saying D i slots -> resolve_slots x en input slots alts = Ok out ->
    forall s, In s out -> said i s.
  Proof.
    intros A H s Hs. apply resolve_slots_ok in H as (bes & ces & opts & _ & F & ->).
    apply In_present_inv in Hs. destruct (Forall2_In_r _ _ _ _ F Hs) as (a & Ha & R).
    pose proof (resolve_slot_same _ _ _ _ _ _ _ R) as (R1 & R2 & R3 & R4). unfold said, custom_slot. rewrite R3, R4.
    split; [exact (A a Ha)|]. unfold resolve_slot in R.
    destruct (sget (is_entity a) _) as [e|] eqn:Se; [left; exists e; reflexivity|right].
    unfold resolve_builtin_slot in R. bind_inv R. destruct (x_kind_of_identifier x (is_entity a)) eqn:K; [eauto|discriminate].
  Qed.

  Lemma parse_loop_said wl salts : forall ps sc res, (forall p, In p ps -> In p (en_parsers en)) ->
    parse_loop x en input wl salts sc ps = Ok res ->
    ps_alternatives res = [] /\
    forall s, In s (ps_slots res) -> exists i, ir_name (ps_intent res) = Some i /\ said i s.
  Proof.
    induction ps as [|p ps IH]; intros sc res Sub H; cbn [parse_loop] in H.
    - inv H. split; [reflexivity|]. intros s [].
    - bind_inv H. destruct (ir_name (pr_intent a)) as [i|] eqn:N.
      + bind_inv H. inv H. split; [reflexivity|]. cbn [ps_slots ps_intent]. intros s Hs. exists i. split; [exact N|].
        refine (resolve_said i _ _ _ _ E0 s Hs). exact (proj1 (G p (Sub p (or_introl eq_refl))) _ _ _ E N).
      + apply IH in H; [exact H|]. intros q Hq. apply Sub. right. exact Hq.
  Qed.

  Lemma slots_loop_said i salts : forall ps out, (forall p, In p ps -> In p (en_parsers en)) ->
    get_slots_loop x en input i salts ps = Ok out -> forall s, In s out -> said i s.
  Proof.
    induction ps as [|p ps IH]; intros out Sub H; cbn [get_slots_loop] in H.
    - inv H. intros s [].
    - bind_inv H. destruct a as [|s l] eqn:Ea.
      + eapply IH; [|exact H]. intros q Hq. apply Sub. right. exact Hq.
      + rewrite <- Ea in *. intros s' Hs'. refine (resolve_said i _ _ _ _ H s' Hs').
        exact (proj2 (G p (Sub p (or_introl eq_refl))) _ _ E).
  Qed.

  Lemma parse_said o1 o2 w b n salts res oi s :
    parse_with_alternatives x o1 o2 en input w b n salts = Ok res -> slot_of_answer res oi s ->
    exists i, oi = Some i /\ said i s.
  Proof.
    intros H A. unfold parse_with_alternatives in H. bind_inv H. bind_inv H.
    destruct (parse_loop_said _ _ _ _ _ (fun p Hp => Hp) E0) as [Na Gm].
    destruct (n =? 0).
    - inv H. destruct A as [s Hs|al s Ha Hs]; [exact (Gm s Hs)|]. rewrite Na in Ha. destruct Ha.
    - bind_inv H. bind_inv H. inv H. destruct A as [s Hs|al s Ha Hs]; [exact (Gm s Hs)|]. cbn [ps_alternatives] in Ha.
      destruct (P_Rules.mapM_In _ _ _ _ E2 Ha) as (r & _ & Er). unfold alternative_of in Er. bind_inv Er. inv Er.
      cbn [al_slots al_intent] in *. destruct (ir_name r) as [i|]; [|inv E3; destruct Hs].
      exists i. split; [reflexivity|]. refine (slots_loop_said i _ _ _ _ E3 s Hs). intros p Hp. exact Hp.
  Qed.
End Engine.

Section Loaded.
  Context (x : Ext) (shape : str -> str) (ngrams : list str -> nat -> list str) (mx : Math) (L : Loader)
          (fo : path -> orders) (uo : path -> nat -> HashOrder).

  Lemma saying_impl (D D' : str -> str -> str -> Prop) input p : (forall i n e, D i n e -> D' i n e) ->
    parser_saying D input p -> parser_saying D' input p.
  Proof.
    intros I [A B]. split.
    - intros f r i H N s Hs. apply I. exact (A f r i H N s Hs).
    - intros i l H s Hs. apply I. exact (B i l H s Hs).
  Qed.

  Lemma loaded_saying f p en input (tables : bool) : documents_agree L fo f p ->
    (tables = false -> no_table L fo f p) ->
    from_path x shape ngrams mx L fo uo f p = Ok en -> forall ip, In ip (en_parsers en) ->
    parser_saying (if tables then fun i n _ => declares_name (en_dataset en) i n else declares (en_dataset en)) input ip.
  Proof.
    intros A NT H ip Hip. apply engine_iff in H as (_ & _ & m & M & Ed & F). rewrite Ed.
    destruct (Forall2_In_r _ _ _ _ F Hip) as (name & Hn & P). destruct (A m M name Hn) as (A1 & A2 & A3).
    assert (Weak : parser_saying (declares (em_dataset m)) input ip ->
      parser_saying (if tables then fun i n _ => declares_name (em_dataset m) i n else declares (em_dataset m)) input ip).
    { apply saying_impl. intros i n e Hd. destruct tables; [exists e; exact Hd|exact Hd]. }
    destruct P as [(_ & dm & dp & Dm & Dn & ->)|[(U & lm & lp & Lm & Ln & ->)|(_ & entries & c & fillers & Pm & _ & _ & Ff & ->)]].
    - apply Weak, det_saying. intros i decls n e H1 H2. apply (A1 dm Dm i decls n e); [|exact H2].
      unfold det_new in Dn. bind_inv Dn. bind_inv Dn. inv Dn. exact H1.
    - destruct tables; [|exfalso; exact (NT eq_refl m name M Hn U)].
      apply lookup_saying. unfold lookup_new in Ln. bind_inv Ln. inv Ln. exact (A2 lm Lm).
    - apply Weak, prob_saying. intros i sf slots Hin Hs. destruct (Forall2_In_r _ _ _ _ Ff Hin) as ([i' dir] & He & Ei & U & sm & cf & Sm & Cn & Eg).
      cbn [fst snd] in *. subst i' sf. intros s Is. apply (A3 entries i dir sm Pm He Sm). rewrite <- (crf_mapping _ _ _ _ _ _ _ Cn).
      exact (filler_saying _ _ _ _ Hs s Is).
  Qed.

  Lemma answer_names f p en o1 o2 input w b n salts res oi s : documents_agree L fo f p ->
    from_path x shape ngrams mx L fo uo f p = Ok en ->
    parse_with_alternatives x o1 o2 en input w b n salts = Ok res -> slot_of_answer res oi s ->
    exists i, oi = Some i /\ declares_name (en_dataset en) i (sl_slot_name s).
  Proof.
    intros A H R S. destruct (parse_said _ _ _ _ (loaded_saying f p en input true A ltac:(discriminate) H) _ _ _ _ _ _ _ _ _ R S) as (i & E & D & _).
    eauto.
  Qed.

  Lemma answer_entities f p en o1 o2 input w b n salts res oi s : documents_agree L fo f p -> no_table L fo f p ->
    from_path x shape ngrams mx L fo uo f p = Ok en ->
    parse_with_alternatives x o1 o2 en input w b n salts = Ok res -> slot_of_answer res oi s ->
    exists i, oi = Some i /\ declares (en_dataset en) i (sl_slot_name s) (sl_entity s).
  Proof.
    intros A NT H R S. destruct (parse_said _ _ _ _ (loaded_saying f p en input false A (fun _ => NT) H) _ _ _ _ _ _ _ _ _ R S) as (i & E & D & _).
    eauto.
  Qed.

  Lemma slots_names f p en input i salts slots s : documents_agree L fo f p ->
    from_path x shape ngrams mx L fo uo f p = Ok en ->
    get_slots_with_alternatives x en input i salts = Ok slots -> In s slots ->
    declares_name (en_dataset en) i (sl_slot_name s).
  Proof.
    intros A H R S.
    exact (proj1 (slots_loop_said _ _ _ _ (loaded_saying f p en input true A ltac:(discriminate) H) i salts _ _ (fun p Hp => Hp) R s S)).
  Qed.

  Lemma slots_entities f p en input i salts slots s : documents_agree L fo f p -> no_table L fo f p ->
    from_path x shape ngrams mx L fo uo f p = Ok en ->
    get_slots_with_alternatives x en input i salts = Ok slots -> In s slots ->
    declares (en_dataset en) i (sl_slot_name s) (sl_entity s).
  Proof.
    intros A NT H R S.
    exact (proj1 (slots_loop_said _ _ _ _ (loaded_saying f p en input false A (fun _ => NT) H) i salts _ _ (fun p Hp => Hp) R s S)).
  Qed.

  (** Such a slot can be extracted. *)
  Lemma extractable en input i n e salts : entity_parsers_answer (en_resources en) e input ->
    declares (en_dataset en) i n e ->
    ((exists ext, sget e (ds_entities (en_dataset en)) = Some ext) \/ exists k, x_kind_of_identifier x e = Some k) ->
    exists o, extract_slot_with_alternatives x en input i n salts = Ok o.
  Proof.
    intros [B C] (mp & M1 & M2) K. unfold extract_slot_with_alternatives. rewrite M1. cbn [ok_or bind]. rewrite M2. cbn [ok_or bind].
    destruct (sget e (ds_entities (en_dataset en))) as [ext|] eqn:Se.
    - unfold extract_custom_slot. destruct (C salts) as (es & ->). cbn [bind]. eauto.
    - destruct K as [(ext & K)|(k & K)]; [discriminate|]. unfold extract_builtin_slot. rewrite K. cbn [ok_or bind].
      destruct (B k false salts) as (es & ->). cbn [bind]. eauto.
  Qed.

  Lemma answer_extractable f p en o1 o2 input w b n salts res i s text alts : documents_agree L fo f p -> no_table L fo f p ->
    from_path x shape ngrams mx L fo uo f p = Ok en ->
    parse_with_alternatives x o1 o2 en input w b n salts = Ok res -> slot_of_answer res (Some i) s ->
    entity_parsers_answer (en_resources en) (sl_entity s) text ->
    exists o, extract_slot_with_alternatives x en text i (sl_slot_name s) alts = Ok o.
  Proof.
    intros A NT H R S T. destruct (parse_said _ _ _ _ (loaded_saying f p en input false A (fun _ => NT) H) _ _ _ _ _ _ _ _ _ R S) as (j & E & D & K).
    inv E. exact (extractable en text j _ _ alts T D K).
  Qed.
End Loaded.
