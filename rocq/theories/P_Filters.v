(** Filters that allow the same intents. *)
From Coq Require Import String List NArith ZArith Bool Arith Lia.
From Verif Require Import Base Sorting F32 M_Types M_Utils M_Engine M_Det M_Lookup M_Feat M_Prob M_Fs M_Json M_Load S_Base S_Engine S_Rank S_Made
  P_Base P_Engine P_Rank P_Rules P_Made P_SeedsRules P_SeedsEngine.
Import ListNotations.
Local Open Scope list_scope.
Local Open Scope nat_scope.

Lemma mapM_ext' {A B} (g h : A -> outcome B) l : (forall a, g a = h a) -> mapM g l = mapM h l.
Proof. intros E. induction l as [|a l IH]; [reflexivity|]. cbn [mapM]. rewrite E, IH. reflexivity. Qed.

Lemma det_filter x ord dp input f f' : same_filter f f' -> det_parse x ord dp input f = det_parse x ord dp input f'.
Proof.
  intros S. unfold det_parse, det_parse_top, det_matches, considered.
  destruct f as [l|], f' as [l'|]; try contradiction S; [|reflexivity].
  rewrite (filter_ext (fun e => smem (fst e) l) (fun e => smem (fst e) l')) by (intros e; apply S). reflexivity.
Qed.
Lemma lookup_filter x ord lp input f f' : same_filter f f' -> lookup_parse x ord lp input f = lookup_parse x ord lp input f'.
Proof.
  intros S. destruct f as [l|], f' as [l'|]; try contradiction S; [|reflexivity]. cbn [same_filter] in S.
  unfold lookup_parse, lookup_parse_top, lookup_matches.
  assert (C : get_candidates x lp input (Some l) = get_candidates x lp input (Some l')).
  { unfold get_candidates. rewrite (mapM_ext' (group_candidates x lp input (Some l)) (group_candidates x lp input (Some l'))); [reflexivity|].
    intros g. unfold group_candidates, allowed_group.
    rewrite (filter_ext (fun i => smem i l) (fun i => smem i l')) by exact S. reflexivity. }
  rewrite C. destruct (get_candidates x lp input (Some l')) as [cands|e|]; [|reflexivity..]. cbn [bind].
  rewrite (mapM_ext' (lookup_candidate x lp input (Some l)) (lookup_candidate x lp input (Some l'))); [reflexivity|].
  intros c. unfold lookup_candidate. destruct (hget _ _ _); [|reflexivity]. unfold parse_map_output.
  destruct (index_i32 _ _) as [name|e|]; [|reflexivity..]. cbn [bind]. rewrite S. reflexivity.
Qed.
Lemma prob_filter o mx c fillers input f f' : same_filter f f' ->
  prob_parse (prob_new o (logreg_classifier mx c) fillers) input f = prob_parse (prob_new o (logreg_classifier mx c) fillers) input f'.
Proof. intros S. unfold prob_parse. cbn [prob_new pp_classifier logreg_classifier ic_get_intent]. rewrite (classifier_filter mx c input _ _ S). reflexivity. Qed.

Section Engine.
  Context (x : Ext) (shape : str -> str) (ngrams : list str -> nat -> list str) (mx : Math) (L : Loader)
    (fo : path -> orders) (uo : path -> nat -> HashOrder) (f : fs) (p : path) (en : Engine).
  Hypothesis Hen : from_path x shape ngrams mx L fo uo f p = Ok en.

  Lemma loaded_filter ip input wl wl' : In ip (en_parsers en) -> same_filter wl wl' -> ip_parse ip input wl = ip_parse ip input wl'.
  Proof.
    intros I S. pose proof Hen as H. apply engine_iff in H. destruct H as (_ & _ & m & _ & _ & F). clear Hen.
    induction F as [|name i names ips A F IH]; [contradiction|]. destruct I as [->|I]; [|apply IH, I].
    destruct A as [(_ & dm & dp & _ & _ & ->)|[(_ & lm & lp & _ & _ & ->)|(_ & es & c & fl & _ & _ & _ & _ & ->)]]; cbn [ip_parse det_intent_parser lookup_intent_parser prob_intent_parser].
    - apply det_filter, S.
    - apply lookup_filter, S.
    - apply prob_filter, S.
  Qed.
  Lemma loop_filter input wl wl' a : same_filter wl wl' -> forall sc,
    parse_loop x en input wl a sc (en_parsers en) = parse_loop x en input wl' a sc (en_parsers en).
  Proof.
    intros S. pose proof (fun ip => loaded_filter ip input wl wl') as G. revert G. generalize (en_parsers en).
    induction l as [|ip l IH]; intros G sc; [reflexivity|]. cbn [parse_loop]. rewrite (G ip (or_introl eq_refl) S).
    destruct (ip_parse ip input wl') as [r|e|]; [|reflexivity..]. cbn [bind]. destruct (ir_name (pr_intent r)); [reflexivity|].
    apply IH. intros jp J. apply G. right. exact J.
  Qed.

  Lemma same_filters o1 o1' o2 input w b w' b' n a :
    names_known en w -> names_known en b -> names_known en w' -> names_known en b' ->
    (w = None /\ b = None <-> w' = None /\ b' = None) ->
    (forall i, known en i -> (allowed w b i <-> allowed w' b' i)) ->
    parse_with_alternatives x o1 o2 en input w b n a = parse_with_alternatives x o1' o2 en input w' b' n a.
  Proof.
    intros Kw Kb Kw' Kb' N A. unfold parse_with_alternatives.
    destruct (whitelist_ok o1 en w b Kw Kb) as (f1 & -> & N1 & M1).
    destruct (whitelist_ok o1' en w' b' Kw' Kb') as (f2 & -> & N2 & M2). cbn [bind].
    assert (S : same_filter f1 f2).
    { destruct f1 as [l|], f2 as [l'|]; [| | |exact I].
      - intros i. specialize (M1 l eq_refl i). specialize (M2 l' eq_refl i). apply eq_true_iff_eq. rewrite !smem_spec, M1, M2.
        split; intros [K Q]; (split; [exact K|]); apply (A i K), Q.
      - exfalso. assert (Q : w' = None /\ b' = None) by (apply N2; reflexivity). apply N in Q. apply N1 in Q. discriminate.
      - exfalso. assert (Q : w = None /\ b = None) by (apply N1; reflexivity). apply N in Q. apply N2 in Q. discriminate. }
    rewrite (loop_filter input f1 f2 a S). destruct (parse_loop _ _ _ _ _ _ _) as [r|e|]; [|reflexivity..]. cbn [bind].
    destruct (n =? 0); [reflexivity|]. destruct (get_intents o2 en input) as [l|e|]; [|reflexivity..]. cbn [bind].
    rewrite (filter_ext (passes_filter f1) (passes_filter f2)); [reflexivity|].
    intros r0. unfold passes_filter. destruct (ir_name r0); [|reflexivity]. destruct f1, f2; try contradiction S; [apply S|reflexivity].
  Qed.
End Engine.

(** A rule based parser that is asked for one intent is certain. *)
Lemma det_one_score x ord dp input intent ms : NoDup (hkeys (dp_scopes dp)) ->
  det_matches x ord dp input (Some [intent]) = Ok ms -> countable ms ->
  exists r, det_parse x ord dp input (Some [intent]) = Ok r /\ ir_score (pr_intent r) = f1.
Proof.
  intros ND H C. destruct (det_parse_rule _ _ _ _ _ _ H C) as (r & E & R). exists r. split; [exact E|].
  assert (Len : length ms <= 1).
  { unfold det_matches in H. rewrite considered_single in H by exact ND. destruct (sget intent (dp_scopes dp)) as [sc|]; cbn [mapM] in H.
    - destruct (match_intent _ _ _ _ _ _) as [[m|]|e|]; cbn [bind] in H; try discriminate; injection H as <-; cbn; lia.
    - injection H as <-. cbn. lia. }
  destruct ms as [|m [|m' ms]]; [apply rule_answer_nil in R; subst r; reflexivity|apply rule_answer_single in R; [subst r; reflexivity|exact C]|cbn in Len; lia].
Qed.
Lemma lookup_one_score x ord lp input intent ms :
  lookup_matches x ord lp input (Some [intent]) = Ok ms -> countable ms ->
  exists r, lookup_parse x ord lp input (Some [intent]) = Ok r /\ ir_score (pr_intent r) = f1.
Proof.
  intros H C. destruct (lookup_parse_rule _ _ _ _ _ _ H C) as (r & E & R). exists r. split; [exact E|].
  destruct (lookup_matches_spec _ _ _ _ _ _ H) as (rs & Hr & ND & Sub & _).
  assert (All : forall m, In m ms -> ir_name (pr_intent m) = Some intent).
  { intros m Hin. destruct (candidate_results_name _ _ _ _ _ _ Hr (Sub m Hin)) as (j & Nj & _ & [<-|[]]). exact Nj. }
  destruct ms as [|m [|m' ms]]; [apply rule_answer_nil in R; subst r; reflexivity|apply rule_answer_single in R; [subst r; reflexivity|exact C]|].
  exfalso. cbn [map] in ND. inversion ND as [|a l H1 H2]. apply H1. left. rewrite (All m), (All m'); simpl; auto.
Qed.
