(** Proofs about the answers of the rule based parsers
    (deterministic_intent_parser.rs and lookup_intent_parser.rs). *)
From Coq Require RIneq.
From Coq Require Import List NArith ZArith Bool Lia Permutation Sorted Arith.
From Verif Require Import Base Sorting F32 M_Types M_Utils M_Engine M_Det M_Lookup
  S_Base S_Utils S_Engine S_Det S_Rank S_Rules P_Base P_F32 P_Engine P_Utils P_Det P_Rank.
Import ListNotations.

(** ** Generic *)
Lemma Permutation_mapM {A B} (f : A -> outcome B) l l' r :
  Permutation l l' -> mapM f l = Ok r -> exists r', mapM f l' = Ok r' /\ Permutation r r'.
Proof.
  intros P. revert r. induction P as [|x l l' P IH|x y l|l m n P1 IH1 P2 IH2]; intros r H.
  - exists r. auto.
  - simpl in *. bind_inv H. bind_inv H. inv H. destruct (IH _ E0) as (r' & Hr & Pr).
    rewrite E. simpl. rewrite Hr. simpl. eauto using perm_skip.
  - simpl in *. bind_inv H. bind_inv H. bind_inv E0. bind_inv E0. inv E0. inv H.
    rewrite E1, E. simpl. rewrite E2. simpl. eauto using perm_swap.
  - destruct (IH1 r H) as (r1 & H1 & Q1). destruct (IH2 r1 H1) as (r2 & H2 & Q2).
    eauto using Permutation_trans.
Qed.

Lemma present_perm {A} (l l' : list (option A)) : Permutation l l' -> Permutation (present l) (present l').
Proof. intros P. unfold present. apply Permutation_flat_map. exact P. Qed.

Lemma In_present_inv {A} (a : A) l : In a (present l) -> In (Some a) l.
Proof.
  unfold present. intros H. apply in_flat_map in H as (o & Ho & Ha). destruct o as [b|]; [|contradiction].
  destruct Ha as [->|[]]. exact Ho.
Qed.

Lemma Forall2_In_r {A B} (R : A -> B -> Prop) l m b :
  Forall2 R l m -> In b m -> exists a, In a l /\ R a b.
Proof.
  induction 1 as [|x y l m H F IH]; intros Hb; [contradiction|].
  destruct Hb as [->|Hb]; [eauto using in_eq|]. destruct (IH Hb) as (a & Ha & Hr). eauto using in_cons.
Qed.

(** Names of the present results, as a sub-list of the names of the items. *)
Lemma present_names {A B C} (R : A -> option B -> Prop) (f : A -> C) (g : B -> C) l opts :
  Forall2 R l opts -> (forall a b, R a (Some b) -> g b = f a) ->
  subseq (map g (present opts)) (map f l).
Proof.
  intros F H. induction F as [|a o l opts Ho F IH]; simpl; [constructor|].
  destruct o as [b|]; simpl.
  - rewrite (H a b Ho). constructor. exact IH.
  - apply subseq_skip. exact IH.
Qed.

(** ** The deterministic parser's matches *)
Definition det_considered_names dp f := map fst (considered dp f).

Lemma get_matching_name x dp input formatted regex intent mapping m :
  get_matching_result x dp input formatted regex intent mapping = Ok (Some m) ->
  ir_name (pr_intent m) = Some intent.
Proof.
  unfold get_matching_result. destruct (regex formatted); [|discriminate].
  intros H. bind_inv H. inv H. reflexivity.
Qed.

Lemma first_match_ok x dp input cleaned cf intent mapping regexes o :
  first_match x dp input cleaned cf intent mapping regexes = Ok (Some o) ->
  exists r, In r regexes /\
    (get_matching_result x dp input cleaned r intent None = Ok (Some o) \/
     get_matching_result x dp input cf r intent (Some mapping) = Ok (Some o)).
Proof.
  induction regexes as [|r rest IH]; simpl; [discriminate|].
  intros H. bind_inv H. destruct a as [res|].
  - inv H. exists r. auto.
  - bind_inv H. destruct a as [res|].
    + inv H. exists r. auto.
    + destruct (IH H) as (r' & Hr & Hm). exists r'. auto.
Qed.

Lemma match_intent_name x ord dp input intent scope m :
  match_intent x ord dp input intent scope = Ok (Some m) -> ir_name (pr_intent m) = Some intent.
Proof.
  unfold match_intent. intros H. bind_inv H. bind_inv H.
  destruct (replace_entities input _ _) as [mapping formatted].
  bind_inv H. bind_inv H. bind_inv H.
  apply first_match_ok in H as (r & _ & [H|H]); eapply get_matching_name; eauto.
Qed.

Lemma match_intent_known x ord dp input intent scope o :
  match_intent x ord dp input intent scope = Ok o -> In intent (hkeys (dp_regexes dp)).
Proof.
  unfold match_intent. intros H. bind_inv H. bind_inv H.
  destruct (replace_entities input _ _) as [mapping formatted].
  bind_inv H. bind_inv H. bind_inv H.
  destruct (sget intent (dp_regexes dp)) eqn:G; [|discriminate].
  apply sget_In in G. unfold hkeys. apply (in_map fst) in G. exact G.
Qed.

Lemma det_matches_ok x ord dp input f ms :
  det_matches x ord dp input f = Ok ms ->
  exists opts, Forall2 (fun e o => match_intent x ord dp input (fst e) (snd e) = Ok o)
                       (considered dp f) opts /\ ms = present opts.
Proof.
  unfold det_matches. intros H. bind_inv H. inv H. exists a.
  split; [apply mapM_ok_Forall2; auto|apply filter_map_present].
Qed.

Lemma det_matches_names x ord dp input f ms :
  det_matches x ord dp input f = Ok ms ->
  subseq (map (fun m => ir_name (pr_intent m)) ms) (map Some (map fst (considered dp f))).
Proof.
  intros H. apply det_matches_ok in H as (opts & F & ->). rewrite map_map.
  eapply present_names; [exact F|]. intros e m. simpl. apply match_intent_name.
Qed.

Lemma considered_In dp f e : In e (considered dp f) ->
  In e (dp_scopes dp) /\ match f with Some l => In (fst e) l | None => In (fst e) (hkeys (dp_slots dp)) end.
Proof.
  unfold considered. rewrite filter_In, smem_spec. destruct f; auto.
Qed.

Lemma det_parse_rule x ord dp input f ms :
  det_matches x ord dp input f = Ok ms -> countable ms ->
  exists r, det_parse x ord dp input f = Ok r /\ rule_answer ms r.
Proof.
  intros H C. unfold det_parse, det_parse_top. rewrite H. cbn [bind].
  destruct (rank_rule ms C) as (tops & -> & R). cbn [bind]. eauto.
Qed.

Lemma rank_ok_In n ms tops r : rank_results n ms = Ok tops -> In r tops -> In r (map (scored ms) ms).
Proof.
  rewrite rank_scored. intros H Hr. bind_inv H. inv H.
  apply (subseq_In _ _ _ (subseq_firstn n a)) in Hr. rewrite (sort_desc_In _ _ _ r E) in Hr. exact Hr.
Qed.

Lemma answer_of_In tops i : ir_name (pr_intent (answer_of tops)) = Some i ->
  exists r, In r tops /\ answer_of tops = r.
Proof.
  unfold answer_of. destruct tops as [|r rest]; [discriminate|].
  destruct (fle _ _); [discriminate|]. intros _. exists r. split; [left|]; reflexivity.
Qed.

Lemma det_parse_answer x ord dp input f r i :
  det_parse x ord dp input f = Ok r -> ir_name (pr_intent r) = Some i ->
  exists ms m, det_matches x ord dp input f = Ok ms /\ In m ms /\ r = scored ms m /\
    ir_name (pr_intent m) = Some i.
Proof.
  intros H N. unfold det_parse, det_parse_top in H. bind_inv H. inv H. bind_inv E.
  apply answer_of_In in N as Hr. destruct Hr as (r & Hr & Er).
  rewrite Er in *. apply (rank_ok_In _ _ _ _ E) in Hr. apply in_map_iff in Hr as (m & <- & Hm).
  exists a0, m. auto.
Qed.

Lemma det_honours x ord dp : honours_filter (det_intent_parser x ord dp).
Proof.
  intros input l r i H N. simpl in H. apply (det_parse_answer _ _ _ _ _ _ _ H) in N as (ms & m & Hm & Hi & _ & Nm).
  apply det_matches_names in Hm.
  assert (Hin : In (Some i) (map Some (map fst (considered dp (Some l))))).
  { eapply subseq_In; [exact Hm|]. rewrite <- Nm. apply (in_map (fun m => ir_name (pr_intent m))). exact Hi. }
  apply in_map_iff in Hin as (j & E & Hj). inv E. apply in_map_iff in Hj as (e & <- & He).
  apply considered_In in He. apply He.
Qed.

(** ** Listing of all intents *)
Lemma opt_str_dec (a b : option str) : {a = b} + {a <> b}.
Proof. decide equality. apply str_eq_dec. Defined.

Lemma NoDup_app' {A} (l m : list A) :
  NoDup l -> NoDup m -> (forall x, In x l -> ~ In x m) -> NoDup (l ++ m).
Proof.
  intros H1 H2 H. induction H1 as [|x l N H1 IH]; simpl; auto. constructor.
  - intros Hx. apply in_app_or in Hx as [Hx|Hx]; auto. apply (H x); simpl; auto.
  - apply IH. intros y Hy. apply H. right. exact Hy.
Qed.

Lemma NoDup_map_Some {A} (l : list A) : NoDup l -> NoDup (map Some l).
Proof. intros H. apply FinFun.Injective_map_NoDup; auto. intros a b E. congruence. Qed.

Definition names_of (l : list IntentResult) : list (option str) := map ir_name l.

Lemma complete_spec names tops :
  NoDup names -> NoDup (map ir_name tops) ->
  (forall r, In r tops -> exists i, ir_name r = Some i /\ In i names) ->
  (forall r, In r tops -> fle f0 (ir_score r) = true) ->
  StronglySorted (fun a b => fle (ir_score b) (ir_score a) = true) tops ->
  let l := complete_intents names tops in
  NoDup (map ir_name l) /\
  (forall n, In n (map ir_name l) <-> n = None \/ exists i, n = Some i /\ In i names) /\
  best_first l /\
  (forall r i, In r l -> ir_name r = Some i ->
     In r tops \/ (ir_score r = f0 /\ forall t, In t tops -> ir_name t <> Some i)).
Proof.
  intros ND NT HT Pos S l. unfold l, complete_intents.
  set (matched := filter_map ir_name tops).
  assert (Hm : forall i, In i matched <-> In (Some i) (map ir_name tops)).
  { intros i. unfold matched. clear. induction tops as [|t tops IH]; simpl; [tauto|].
    destruct (ir_name t) eqn:E; simpl; rewrite IH; [|intuition discriminate].
    split; intros [H|H]; auto; left; congruence. }
  set (rest := filter (fun i => negb (smem i matched)) names).
  assert (Hr : forall i, In i rest <-> In i names /\ ~ In (Some i) (map ir_name tops)).
  { intros i. unfold rest. rewrite filter_In, negb_true_iff, smem_false, Hm. tauto. }
  split; [|split; [|split]].
  - rewrite !map_app, map_map. cbn [map ir_name].
    assert (ND2 : NoDup (map Some rest)) by (apply NoDup_map_Some, NoDup_filter; auto).
    assert (NN : ~ In None (map ir_name tops)).
    { intros H. apply in_map_iff in H as (r & Er & H). destruct (HT r H) as (i & Hi & _). congruence. }
    apply NoDup_app'; auto.
    + apply NoDup_app'; auto; [repeat constructor; auto|]. intros n Hn [<-|[]].
      apply in_map_iff in Hn as (j & E & _). discriminate.
    + intros n Hn H. apply in_app_or in H as [H|[<-|[]]]; auto.
      apply in_map_iff in H as (j & <- & Hj). apply Hr in Hj. tauto.
  - intros n. rewrite !map_app, map_map, !in_app_iff. cbn [map ir_name In]. split.
    + intros [H|[H|[<-|[]]]]; auto.
      * apply in_map_iff in H as (r & <- & H). destruct (HT r H) as (i & -> & Hi). eauto.
      * apply in_map_iff in H as (i & <- & H). apply Hr in H. right. exists i. tauto.
    + intros [->|(i & -> & Hi)]; auto.
      destruct (in_dec opt_str_dec (Some i) (map ir_name tops)) as [H|H]; auto.
      right. left. apply in_map_iff. exists i. split; auto. apply Hr. auto.
  - unfold best_first. apply (sorted_nth (fun a b => fle (ir_score b) (ir_score a) = true)).
    assert (Z : forall r, In r (map (fun i => mkIR (Some i) f0) rest ++ [mkIR None f0]) -> ir_score r = f0).
    { intros r H. apply in_app_or in H as [H|[<-|[]]]; auto. apply in_map_iff in H as (i & <- & _). reflexivity. }
    apply SS_app. split; auto. split.
    + clear - Z. induction (map _ rest ++ _) as [|r l' IH]; constructor.
      * apply IH. intros r' H. apply Z. right. auto.
      * apply Forall_forall. intros b Hb. rewrite (Z b), (Z r); [reflexivity|left; auto|right; auto].
    + intros a b Ha Hb. rewrite (Z b Hb). apply Pos. exact Ha.
  - intros r i H Hi. apply in_app_or in H as [H|H]; auto. right.
    apply in_app_or in H as [H|[<-|[]]]; [|discriminate].
    apply in_map_iff in H as (j & <- & Hj). simpl in *. inv Hi. split; auto.
    apply Hr in Hj as [_ Hj]. intros t Ht Et. apply Hj. rewrite <- Et. apply in_map. exact Ht.
Qed.

Lemma rank_well n ms : countable ms ->
  exists tops, rank_results n ms = Ok tops /\ well_ranked ms n tops.
Proof.
  intros C. destruct (rank_ok n ms C) as (sorted & H & P & S). exists (firstn n sorted). split; auto.
  assert (In' : forall r, In r (firstn n sorted) -> exists m, In m ms /\ r = scored ms m).
  { intros r Hr. apply (subseq_In _ _ _ (subseq_firstn n sorted)) in Hr.
    eapply Permutation_in in Hr; [|apply Permutation_sym; eauto].
    apply in_map_iff in Hr as (m & <- & Hm). eauto. }
  repeat split.
  - eauto.
  - destruct (In' r H0) as (m & Hm & ->). simpl. destruct (share_R ms C m Hm) as (F & _ & B).
    apply flt_R; auto. rewrite f0_R. apply B.
  - destruct (In' r H0) as (m & Hm & ->). simpl. destruct (share_R ms C m Hm) as (F & _ & B).
    apply fle_R; auto. rewrite f1_R. apply B.
  - unfold best_first. apply (sorted_nth (fun a b => fle (ir_score b) (ir_score a) = true)).
    apply SS_map. eapply subseq_sorted; [apply subseq_firstn|exact S].
  - intros r r' Hr Hr' L. destruct (In' r Hr) as (m & Hm & ->), (In' r' Hr') as (m' & Hm' & ->). simpl.
    destruct (share_R ms C m Hm) as (F & _ & _), (share_R ms C m' Hm') as (F' & _ & _).
    apply fle_R; auto. apply share_mono; auto. apply weight_antitone; [apply C; auto|exact L].
  - intros m -> Hn. simpl in P. apply Permutation_length_1_inv in P. subst sorted.
    destruct n; [lia|]. simpl. rewrite firstn_nil. unfold scored. rewrite share_single; auto.
Qed.

Lemma det_well_ranked x ord dp input n f ms :
  det_matches x ord dp input f = Ok ms -> countable ms ->
  exists tops, det_parse_top x ord dp input n f = Ok tops /\ well_ranked ms n tops.
Proof. intros H C. unfold det_parse_top. rewrite H. cbn [bind]. apply rank_well. exact C. Qed.

Lemma rank_lists names ms :
  NoDup names -> countable ms -> NoDup (map (fun m => ir_name (pr_intent m)) ms) ->
  (forall m, In m ms -> exists i, ir_name (pr_intent m) = Some i /\ In i names) ->
  exists tops, rank_results (length names) ms = Ok tops /\
    lists_intents names ms (complete_intents names (map pr_intent tops)).
Proof.
  intros NDn C NDm Hn. destruct (rank_ok (length names) ms C) as (sorted & H & P & S).
  assert (L : length ms <= length names).
  { rewrite <- (map_length (fun m => ir_name (pr_intent m)) ms), <- (map_length (@Some str) names).
    apply NoDup_incl_length; auto. intros n Hm. apply in_map_iff in Hm as (m & <- & Hm).
    destruct (Hn m Hm) as (i & -> & Hi). apply in_map. exact Hi. }
  assert (E : firstn (length names) sorted = sorted).
  { apply firstn_all2. rewrite <- (Permutation_length P), map_length. exact L. }
  rewrite E in H. exists sorted. split; auto.
  assert (In' : forall r, In r sorted <-> exists m, In m ms /\ r = scored ms m).
  { intros r. split.
    - intros Hr. eapply Permutation_in in Hr; [|apply Permutation_sym; eauto].
      apply in_map_iff in Hr as (m & <- & Hm). eauto.
    - intros (m & Hm & ->). eapply Permutation_in; [exact P|]. apply in_map. exact Hm. }
  destruct (complete_spec names (map pr_intent sorted)) as (R1 & R2 & R3 & R4); auto.
  - rewrite map_map. eapply Permutation_NoDup; [apply Permutation_map; exact P|].
    rewrite map_map. simpl. exact NDm.
  - intros r Hr. apply in_map_iff in Hr as (r0 & <- & Hr). apply In' in Hr as (m & Hm & ->). simpl. auto.
  - intros r Hr. apply in_map_iff in Hr as (r0 & <- & Hr). apply In' in Hr as (m & Hm & ->). simpl.
    destruct (share_R ms C m Hm) as (F & _ & B). apply fle_R; auto. rewrite f0_R. apply RIneq.Rlt_le. apply B.
  - apply SS_map. exact S.
  - split; auto. split; [|split; [|split; auto]].
    + intros i. rewrite R2. split.
      * intros [D|(j & Ej & Hj)]; [discriminate|]. inv Ej. auto.
      * eauto.
    + unfold complete_intents. rewrite app_assoc. eauto.
    + intros r i Hr Hi. destruct (R4 r i Hr Hi) as [Ht|[Z Ht]].
      * left. apply in_map_iff in Ht as (r0 & <- & Ht). apply In' in Ht as (m & Hm & ->).
        exists m. simpl in *. auto.
      * right. split; auto. intros m Hm Em. apply (Ht (pr_intent (scored ms m))); [|exact Em].
        apply in_map. apply In'. eauto.
Qed.

Lemma det_lists x ord dp input ms :
  NoDup (hkeys (dp_regexes dp)) -> NoDup (hkeys (dp_scopes dp)) ->
  det_matches x ord dp input None = Ok ms -> countable ms ->
  exists l, det_get_intents x ord dp input = Ok l /\ lists_intents (hkeys (dp_regexes dp)) ms l.
Proof.
  intros N1 N2 H C. assert (Hs := det_matches_names _ _ _ _ _ _ H).
  assert (ND : NoDup (map fst (considered dp None))).
  { eapply subseq_NoDup; [|exact N2]. unfold hkeys. apply subseq_map. apply subseq_filter. }
  destruct (rank_lists (hkeys (dp_regexes dp)) ms) as (tops & Ht & Hl); auto.
  - eapply subseq_NoDup; [exact Hs|]. apply NoDup_map_Some. exact ND.
  - intros m Hm. apply det_matches_ok in H as (opts & F & ->). apply In_present_inv in Hm.
    apply (Forall2_In_r _ _ _ _ F) in Hm as ([i sc] & Hi & Em). simpl in Em.
    exists i. split; [eapply match_intent_name; eauto|eapply match_intent_known; eauto].
  - unfold det_get_intents, det_parse_top. rewrite H. cbn [bind].
    replace (length (dp_regexes dp)) with (length (hkeys (dp_regexes dp))) by (unfold hkeys; apply map_length).
    rewrite Ht. cbn [bind]. eauto.
Qed.

(** ** get_slots *)
Lemma rule_answer_single m : countable [m] -> forall r, rule_answer [m] r ->
  r = mkIPR (mkIR (ir_name (pr_intent m)) f1) (pr_slots m).
Proof.
  intros C r [[-> H]|(i & m' & Hi & -> & _)].
  - specialize (H m (or_introl eq_refl)). rewrite share_single in H by auto. vm_compute in H. discriminate.
  - destruct i as [|[|i]]; try discriminate. inv Hi. unfold scored. rewrite share_single; auto.
Qed.

Lemma rule_answer_nil r : rule_answer [] r -> r = no_intent.
Proof. intros [[-> _]|(i & m & Hi & _)]; auto. destruct i; discriminate. Qed.

(** At most one scope for an intent. *)
Lemma considered_single dp intent :
  NoDup (hkeys (dp_scopes dp)) ->
  considered dp (Some [intent]) =
  match sget intent (dp_scopes dp) with Some sc => [(intent, sc)] | None => [] end.
Proof.
  unfold considered. intros ND. induction (dp_scopes dp) as [|[i sc] l IH]; auto.
  simpl in ND. inv ND. cbn [filter fst]. unfold sget. cbn [hget].
  assert (E : smem i [intent] = str_eqb intent i).
  { unfold smem, memb. simpl. rewrite orb_false_r.
    destruct (str_eqb i intent) eqn:E1, (str_eqb intent i) eqn:E2; auto.
    - apply str_eqb_spec in E1. subst. rewrite str_eqb_refl in E2. discriminate.
    - apply str_eqb_spec in E2. subst. rewrite str_eqb_refl in E1. discriminate. }
  rewrite E. destruct (str_eqb intent i) eqn:E2.
  - apply str_eqb_spec in E2. subst i. f_equal. rewrite (IH H2).
    destruct (sget intent l) eqn:G; auto. apply sget_In in G. exfalso. apply H1.
    apply (in_map fst) in G. exact G.
  - exact (IH H2).
Qed.

Lemma det_get_slots_spec x ord dp input intent :
  NoDup (hkeys (dp_scopes dp)) ->
  (~ In intent (hkeys (dp_regexes dp)) -> det_get_slots x ord dp input intent = Err EUnknownIntent) /\
  (In intent (hkeys (dp_regexes dp)) ->
    (sget intent (dp_scopes dp) = None -> det_get_slots x ord dp input intent = Ok []) /\
    (forall sc, sget intent (dp_scopes dp) = Some sc ->
       match match_intent x ord dp input intent sc with
       | Ok (Some m) => countable [m] -> det_get_slots x ord dp input intent = Ok (pr_slots m)
       | Ok None => det_get_slots x ord dp input intent = Ok []
       | Err e => det_get_slots x ord dp input intent = Err e
       | Panic => det_get_slots x ord dp input intent = Panic
       end)).
Proof.
  intros ND. unfold det_get_slots. split.
  - intros H. apply smem_false in H. rewrite H. reflexivity.
  - intros H. apply smem_spec in H. rewrite H. clear H.
    assert (Nil : forall m, rule_answer [] m -> pr_slots m = []) by (intros m Hm; apply rule_answer_nil in Hm; subst; reflexivity).
    split.
    + intros G. destruct (det_parse_rule x ord dp input (Some [intent]) []) as (r & -> & R).
      * unfold det_matches. rewrite considered_single, G by auto. reflexivity.
      * intros m [].
      * cbn [bind]. rewrite (Nil r R). reflexivity.
    + intros sc G.
      assert (D : det_matches x ord dp input (Some [intent]) =
                  let* o := match_intent x ord dp input intent sc in Ok (present [o])).
      { unfold det_matches. rewrite considered_single, G by auto. cbn [mapM fst snd].
        destruct (match_intent x ord dp input intent sc); cbn [bind]; auto. rewrite filter_map_present. reflexivity. }
      destruct (match_intent x ord dp input intent sc) as [[m|]|e|].
      * intros C. destruct (det_parse_rule x ord dp input (Some [intent]) [m]) as (r & -> & R); auto.
        cbn [bind]. rewrite (rule_answer_single m C r R). reflexivity.
      * destruct (det_parse_rule x ord dp input (Some [intent]) []) as (r & -> & R); auto.
        { intros m []. }
        cbn [bind]. rewrite (Nil r R). reflexivity.
      * unfold det_parse, det_parse_top. rewrite D. reflexivity.
      * unfold det_parse, det_parse_top. rewrite D. reflexivity.
Qed.

(** ** Order of enumeration *)
Lemma rule_parse_perm ms ms' r tops tops' :
  countable ms -> length ms <= 2 -> Permutation ms ms' ->
  rank_results 1 ms = Ok tops -> rank_results 1 ms' = Ok tops' ->
  r = answer_of tops -> r = answer_of tops'.
Proof.
  intros C L P H H' ->.
  assert (C' : countable ms') by (intros m Hm; apply C; eapply Permutation_in; [apply Permutation_sym|]; eauto).
  destruct (rank_rule ms C) as (t & Et & R). destruct (rank_rule ms' C') as (t' & Et' & R').
  assert (t = tops) by congruence. assert (t' = tops') by congruence. subst t t'.
  apply (rule_answer_unique ms'); auto.
  exact (rule_answer_perm _ _ _ C L P R).
Qed.

(** ** Slots of the deterministic parser *)
Lemma slot_of_group_declared dp input formatted intent mapping g s :
  slot_of_group dp input formatted intent mapping g = Ok s -> declared_slot (dp_slots dp) input intent s.
Proof.
  unfold slot_of_group, sindex. intros H.
  destruct (sget (before_underscore (fst g)) (dp_groups dp)) as [sn|]; [|discriminate]. cbn [bind] in H.
  destruct (sget intent (dp_slots dp)) as [decls|] eqn:E1; [|discriminate]. cbn [bind] in H.
  destruct (sget sn decls) as [en|] eqn:E2; [|discriminate]. cbn [bind] in H. inv H.
  split; [reflexivity|]. exists decls. split; apply sget_In; auto.
Qed.

Lemma get_matching_spec x dp input formatted r intent mapping m :
  get_matching_result x dp input formatted r intent mapping = Ok (Some m) ->
  ordered_disjoint (map is_range (pr_slots m)) /\
  forall s, In s (pr_slots m) -> exists caps n rg, r formatted = Some caps /\
    In (Some n, Some rg) (skipn 1 caps) /\
    slot_of_group dp input formatted intent mapping (n, rg) = Ok s.
Proof.
  unfold get_matching_result. destruct (r formatted) as [caps|]; [|discriminate]. intros H.
  bind_inv H. inv H. cbn [pr_slots].
  change (deduplicate_overlapping_slots x (dp_lang dp) a) with (resolve is_range (slot_sort_key x (dp_lang dp)) a).
  split; [apply resolve_ordered|]. intros s Hs. apply resolve_In in Hs.
  apply mapM_ok_Forall2 in E. apply (Forall2_In_r _ _ _ _ E) in Hs as ([n rg] & Hg & Es).
  exists caps, n, rg. split; auto. split; auto.
  unfold named_groups in Hg. clear - Hg. induction (skipn 1 caps) as [|[[n'|] [rg'|]] l IH]; simpl in *; auto.
  destruct Hg as [Hg|Hg]; auto. inv Hg. auto.
Qed.

Lemma first_match_spec x dp input cleaned cf intent mapping regexes m :
  first_match x dp input cleaned cf intent mapping regexes = Ok (Some m) ->
  exists r, In r regexes /\
    (get_matching_result x dp input cleaned r intent None = Ok (Some m) \/
     get_matching_result x dp input cf r intent (Some mapping) = Ok (Some m)).
Proof.
  induction regexes as [|r rest IH]; simpl; [discriminate|]. intros H.
  bind_inv H. destruct a as [m1|].
  { inv H. exists r. auto. }
  bind_inv H. destruct a as [m2|].
  { inv H. exists r. auto. }
  destruct (IH H) as (r' & Hr & Hm). exists r'. auto.
Qed.

Lemma det_parse_from x ord dp input f r i :
  det_parse x ord dp input f = Ok r -> ir_name (pr_intent r) = Some i ->
  exists sc m, In (i, sc) (considered dp f) /\ match_intent x ord dp input i sc = Ok (Some m) /\
    pr_slots m = pr_slots r.
Proof.
  intros H N. unfold det_parse in H. bind_inv H. inv H. unfold det_parse_top in E. bind_inv E.
  destruct a as [|top rest]; [discriminate|]. unfold answer_of in *.
  destruct (fle _ fhalf) in *; [discriminate|].
  apply rank_ok_In with (r := top) in E; [|left; reflexivity]. apply in_map_iff in E as (m & <- & Hm).
  apply det_matches_ok in E0 as (opts & F & ->). apply In_present_inv in Hm.
  apply (Forall2_In_r _ _ _ _ F) in Hm as ([j sc] & Hj & Em). simpl in Em.
  assert (J := match_intent_name _ _ _ _ _ _ _ Em).
  simpl in N. assert (i = j) by congruence. subst j. exists sc, m. auto.
Qed.

Lemma det_slots_declared x ord dp input f r :
  det_parse x ord dp input f = Ok r ->
  ordered_disjoint (map is_range (pr_slots r)) /\
  forall s, In s (pr_slots r) ->
    exists i, ir_name (pr_intent r) = Some i /\ declared_slot (dp_slots dp) input i s.
Proof.
  intros H. destruct (ir_name (pr_intent r)) as [i|] eqn:N.
  - destruct (det_parse_from _ _ _ _ _ _ _ H N) as (sc & m & _ & Hm & Es). rewrite <- Es.
    unfold match_intent in Hm. bind_inv Hm. bind_inv Hm.
    destruct (replace_entities _ _ _) as [mapping formatted]. bind_inv Hm. bind_inv Hm. bind_inv Hm.
    apply first_match_spec in Hm as (rg & _ & [Hm|Hm]); apply get_matching_spec in Hm as [O Hs];
      (split; [exact O|]; intros s Hin; destruct (Hs s Hin) as (caps & n & rr & _ & _ & G);
       exists i; split; auto; eapply slot_of_group_declared; exact G).
  - assert (E : pr_slots r = []).
    { unfold det_parse in H. bind_inv H. inv H. unfold det_parse_top in E. bind_inv E.
      destruct a as [|top rest]; [reflexivity|]. unfold answer_of in *.
      destruct (fle _ fhalf) in *; [reflexivity|]. exfalso.
      apply rank_ok_In with (r := top) in E; [|left; reflexivity]. apply in_map_iff in E as (m & <- & Hm).
      apply det_matches_ok in E0 as (opts & F & ->). apply In_present_inv in Hm.
      apply (Forall2_In_r _ _ _ _ F) in Hm as ([j sc] & Hj & Em). simpl in Em.
      apply match_intent_name in Em. simpl in N. congruence. }
    rewrite E. split; [|intros s []]. intros a b ra rb _ Ha. destruct a; discriminate.
Qed.

Lemma char_index_boundary s i : i <= length s -> char_index s (byte_len (firstn i s)) = i.
Proof.
  revert i. induction s as [|c s IH]; intros [|i] H; simpl in *; auto; try lia.
  assert (P := utf8_len_pos c).
  destruct (utf8_len c + byte_len (firstn i s) =? 0) eqn:E; [apply Nat.eqb_eq in E; lia|].
  replace (utf8_len c + byte_len (firstn i s) - utf8_len c) with (byte_len (firstn i s)) by lia.
  rewrite IH; lia.
Qed.

Lemma regex_group_inside r s caps n rg :
  regex_ok r -> r s = Some caps -> In (n, Some rg) (skipn 1 caps) -> inside s (convert_to_char_range s rg).
Proof.
  intros OK H Hin. apply (subseq_In _ _ _ (subseq_skipn 1 caps)) in Hin.
  destruct (OK s caps H n rg Hin) as (i & j & Hij & Hj & ->).
  unfold convert_to_char_range, inside. cbn [rstart rend fst snd].
  rewrite !char_index_boundary by lia. lia.
Qed.

Lemma placeholder_nonempty x label : get_entity_placeholder x label <> [].
Proof. unfold get_entity_placeholder. simpl. discriminate. Qed.

Lemma found_ok x res input sc es :
  builtin_parser_ok (rs_builtin res) input -> custom_parser_ok (rs_custom res) input ->
  entities_found res input sc es ->
  forall e, In e es -> wf_range (length input) (me_range e) /\ get_entity_placeholder x (me_name e) <> [].
Proof.
  intros B C (bes & ces & Hb & Hc & ->) e He. split; [|apply placeholder_nonempty].
  apply in_app_or in He as [He|He]; apply in_map_iff in He as (a & <- & Ha); simpl; eauto.
Qed.

Lemma det_slots_inside x ord dp input f r :
  tokenizer_ok x ->
  (forall i rs rg, In (i, rs) (dp_regexes dp) -> In rg rs -> regex_ok rg) ->
  builtin_parser_ok (rs_builtin (dp_res dp)) input -> custom_parser_ok (rs_custom (dp_res dp)) input ->
  texts_short x dp input -> patterns_aligned x dp input ->
  det_parse x ord dp input f = Ok r ->
  forall s, In s (pr_slots r) -> inside input (is_range s).
Proof.
  intros T RX BP CP [L Lf0] PA H s Hs.
  destruct (proj2 (det_slots_declared _ _ _ _ _ _ H) s Hs) as (i & N & _).
  destruct (det_parse_from _ _ _ _ _ _ _ H N) as (sc & m & Hsc & Hm & Es). rewrite <- Es in Hs.
  apply considered_In in Hsc as [Hsc _].
  unfold match_intent in Hm. bind_inv Hm. rename a into bes. bind_inv Hm. rename a into ces.
  set (es := map matched_of_builtin bes ++ map matched_of_custom ces) in *.
  assert (EF : entities_found (dp_res dp) input sc es) by (exists bes, ces; auto).
  destruct (replace_entities _ _ _) as [mapping formatted] eqn:RE.
  bind_inv Hm. rename a into cleaned. bind_inv Hm. rename a into cf. bind_inv Hm. rename a into regexes.
  assert (Hreg : In (i, regexes) (dp_regexes dp)).
  { destruct (sget i (dp_regexes dp)) eqn:G; [|discriminate]. inv E3. apply sget_In. exact G. }
  apply first_match_spec in Hm as (rg & Hrg & Hm).
  assert (OK := RX _ _ _ Hreg Hrg).
  destruct Hm as [Hm|Hm]; apply get_matching_spec in Hm as [_ Hm];
    destruct (Hm s Hs) as (caps & n & b & Hc & Hb & G); clear Hm Hs.
  - assert (I := regex_group_inside _ _ _ _ _ OK Hc Hb).
    unfold slot_of_group in G. bind_inv G. bind_inv G. bind_inv G. inv G. cbn [is_range snd].
    destruct (det_preprocess_blanked x dp input i (T _ _)) as (c' & Ec & [Lc _]).
    rewrite Ec in E1. inv E1. unfold inside in *. lia.
  - assert (I := regex_group_inside _ _ _ _ _ OK Hc Hb).
    assert (Lf := Lf0 i sc es mapping formatted Hsc EF RE).
    assert (RP := PA i sc regexes rg es mapping formatted).
    destruct (det_preprocess_blanked x dp formatted i (T _ _)) as (c' & Ec & [Lc _]).
    rewrite Ec in E2. inv E2.
    assert (FO := found_ok x _ _ _ _ BP CP EF).
    unfold slot_of_group in G. bind_inv G. bind_inv G. bind_inv G. inv G. cbn [is_range snd].
    set (g := convert_to_char_range cf b) in *.
    destruct (RP cf Hsc Hreg Hrg EF RE Ec caps Hc (Some n) b Hb) as [Hk|Hk]; cbv zeta in Hk; fold g in Hk.
    + apply in_map_iff in Hk as ([k v] & Ek & Hk). simpl in Ek. subst k.
      erewrite restore_placeholder_spec; eauto.
      destruct (mapping_designates input es _ mapping formatted FO L RE Lf) as [D _].
      destruct (D g v Hk) as (e & He & <- & _). destruct (FO e He) as [W _]. unfold wf_range in W. unfold inside. lia.
    + destruct (restore_outside_spec input es _ mapping formatted ord g FO L RE Lf) as (R1 & R2 & _).
      * apply I.
      * unfold inside in I. lia.
      * intros k v Hkv. apply Hk. apply (in_map fst) in Hkv. exact Hkv.
      * split; auto.
Qed.

(** [get_slots] agrees with [parse]. *)
Lemma det_get_slots_agrees x ord dp input f r i :
  NoDup (hkeys (dp_scopes dp)) -> countable [r] ->
  det_parse x ord dp input f = Ok r -> ir_name (pr_intent r) = Some i ->
  det_get_slots x ord dp input i = Ok (pr_slots r).
Proof.
  intros ND C H N. destruct (det_parse_from _ _ _ _ _ _ _ H N) as (sc & m & Hsc & Hm & Es).
  apply considered_In in Hsc as [Hsc _].
  destruct (det_get_slots_spec x ord dp input i ND) as [_ K].
  destruct (K (match_intent_known _ _ _ _ _ _ _ Hm)) as [_ K']. clear K.
  specialize (K' sc (sget_NoDup _ _ _ ND Hsc)). rewrite Hm in K'. rewrite <- Es. apply K'.
  intros m' [<-|[]]. unfold slot_count. rewrite Es. apply (C r). left. reflexivity.
Qed.

(** ** Lookup parser: combinations *)
Section Combinations.
  Context {A : Type}.

  Lemma combinations_subseq k : forall (l c : list A), In c (combinations k l) <-> subseq c l /\ length c = k.
  Proof.
    induction k as [|k IHk].
    - intros l c. split.
      + intros H. destruct l; simpl in H; destruct H as [<-|[]]; split; auto; apply subseq_nil_l.
      + intros [_ L]. destruct c; [|discriminate]. destruct l; simpl; auto.
    - induction l as [|a l IHl]; intros c.
      + simpl. split; [contradiction|]. intros [S L]. inv S. discriminate.
      + cbn [combinations]. rewrite in_app_iff, in_map_iff, IHl. split.
        * intros [(c' & <- & H)|[S L]].
          { apply IHk in H as [S L]. split; [apply subseq_keep; exact S|simpl; lia]. }
          { split; [apply subseq_skip; exact S|exact L]. }
        * intros [S L]. inv S.
          { left. eexists. split; [reflexivity|]. apply IHk. split; auto. }
          { right. auto. }
  Qed.

  Lemma combinations_NoDup k : forall (l : list A), NoDup l -> NoDup (combinations k l).
  Proof.
    induction k as [|k IHk]; [intros [|]; simpl; constructor; simpl; auto; constructor|].
    induction l as [|a l IHl]; intros ND; [constructor|]. inv ND. cbn [combinations].
    apply NoDup_app'.
    - apply FinFun.Injective_map_NoDup; auto. intros c c' E. inv E. reflexivity.
    - apply IHl. exact H2.
    - intros c H H'. apply in_map_iff in H as (c' & <- & _).
      apply combinations_subseq in H' as [S _]. apply H1. eapply subseq_In; [exact S|]. left. reflexivity.
  Qed.

  Lemma combinations_length k : forall (l : list A) c, In c (combinations k l) -> length c = k.
  Proof. intros l c H. apply combinations_subseq in H. apply H. Qed.

  Lemma items_combinations_In (l c : list A) : In c (get_items_combinations l) <-> subseq c l.
  Proof.
    unfold get_items_combinations. cbn [In]. rewrite in_flat_map. split.
    - intros [<-|(k & _ & H)]; [apply subseq_nil_l|]. apply combinations_subseq in H. apply H.
    - intros S. destruct c as [|a c]; [auto|]. right. exists (length (a :: c)). split.
      + apply -> in_rev. apply in_seq. apply subseq_length in S. simpl in *. lia.
      + apply combinations_subseq. auto.
  Qed.

  Lemma flat_combinations_NoDup (l : list A) ks : NoDup l -> NoDup ks ->
    NoDup (flat_map (fun k => combinations k l) ks).
  Proof.
    intros ND. induction ks as [|k ks IH]; intros NK; simpl; [constructor|]. inv NK. apply NoDup_app'.
    - apply combinations_NoDup. exact ND.
    - auto.
    - intros c H H'. apply in_flat_map in H' as (k' & Hk & H'). apply combinations_length in H, H'. congruence.
  Qed.

  Lemma items_combinations_NoDup (l : list A) : NoDup l -> NoDup (get_items_combinations l).
  Proof.
    intros ND. unfold get_items_combinations. constructor.
    - intros H. apply in_flat_map in H as (k & Hk & H). apply combinations_length in H.
      apply in_rev in Hk. apply in_seq in Hk. simpl in H. lia.
    - apply flat_combinations_NoDup; auto. apply NoDup_rev, seq_NoDup.
  Qed.

  Lemma combinations_sorted (l : list A) n :
    StronglySorted (fun c c' => length c' <= length c) (flat_map (fun k => combinations k l) (rev (seq 1 n))).
  Proof.
    induction n; [constructor|]. rewrite seq_S, rev_app_distr. simpl rev. cbn [app flat_map].
    apply SS_app. split; [|split; auto].
    - assert (E : forall c, In c (combinations (S n) l) -> length c = S n) by (intros; eapply combinations_length; eauto).
      induction (combinations (S n) l) as [|c cs IHc]; constructor.
      + apply IHc. intros c' H. apply E. right. auto.
      + apply Forall_forall. intros c' H. rewrite (E c), (E c'); simpl; auto.
    - intros c c' H H'. apply combinations_length in H. apply in_flat_map in H' as (k & Hk & H').
      apply combinations_length in H'. apply in_rev in Hk. apply in_seq in Hk. lia.
  Qed.
End Combinations.

Lemma subseq_count {A} (l : list A) (L : list (list A)) :
  NoDup l -> NoDup L -> (forall c, In c L <-> subseq c l) -> length L = 2 ^ length l.
Proof.
  revert L. induction l as [|a l IH]; intros L ND NL H.
  - assert (E : Permutation L [[]]).
    { apply NoDup_Permutation; auto; [constructor; simpl; auto; constructor|].
      intros c. rewrite H. split; [intros S; inv S; left; auto|intros [<-|[]]; constructor]. }
    rewrite (Permutation_length E). reflexivity.
  - inv ND.
    set (M := get_items_combinations l).
    assert (E : Permutation L (map (cons a) M ++ M)).
    { apply NoDup_Permutation; auto.
      - apply NoDup_app'.
        + apply FinFun.Injective_map_NoDup; [intros c c' E; inv E; reflexivity|]. apply items_combinations_NoDup; auto.
        + apply items_combinations_NoDup; auto.
        + intros c Hc Hc'. apply in_map_iff in Hc as (c' & <- & _). apply items_combinations_In in Hc'.
          apply H2. eapply subseq_In; [exact Hc'|]. left. reflexivity.
      - intros c. rewrite H, in_app_iff, in_map_iff. unfold M. rewrite items_combinations_In. split.
        + intros S. inv S; [left; eexists; split; [reflexivity|]; apply items_combinations_In; auto|right; auto].
        + intros [(c' & <- & Hc)|Hc]; [apply subseq_keep; apply items_combinations_In; auto|apply subseq_skip; auto]. }
    rewrite (Permutation_length E), app_length, map_length.
    rewrite (IH M); [simpl; lia|auto|apply items_combinations_NoDup; auto|apply items_combinations_In].
Qed.

(** ** Lookup parser: matches *)
Lemma mapM_In {A B} (f : A -> outcome B) l r b : mapM f l = Ok r -> In b r -> exists a, In a l /\ f a = Ok b.
Proof. intros H Hb. apply mapM_ok_Forall2 in H. apply (Forall2_In_r _ _ _ _ H) in Hb. exact Hb. Qed.

Lemma index_i32_ok {A} (l : list A) id a : index_i32 l id = Ok a -> In a l.
Proof.
  unfold index_i32, index. destruct (id <? 0)%Z; [discriminate|].
  destruct (nth_error l (Z.to_nat id)) eqn:E; [|discriminate]. intros H. inv H. eapply nth_error_In; eauto.
Qed.

Lemma index_i32_panic {A} (l : list A) id : valid_id l id <-> index_i32 l id <> Panic.
Proof.
  unfold valid_id, index_i32, index. destruct (id <? 0)%Z eqn:E.
  - apply Z.ltb_lt in E. split; [lia|congruence].
  - apply Z.ltb_ge in E. destruct (nth_error l (Z.to_nat id)) eqn:N.
    + split; [discriminate|]. intros _. assert (nth_error l (Z.to_nat id) <> None) by congruence. apply nth_error_Some in H. lia.
    + split; [|congruence]. apply nth_error_None in N. lia.
Qed.

Lemma index_i32_valid {A} (l : list A) id : valid_id l id -> exists a, index_i32 l id = Ok a.
Proof.
  intros H. unfold valid_id in H. unfold index_i32, index. destruct (id <? 0)%Z eqn:E; [apply Z.ltb_lt in E; lia|].
  destruct (nth_error l (Z.to_nat id)) eqn:N; eauto. apply nth_error_None in N. lia.
Qed.

(** The result of a candidate. *)
Definition from_candidate (x : Ext) (lp : LookupParser) (input : str) (f : option (list str))
    (m : InternalParsingResult) : Prop :=
  exists cands c, get_candidates x lp input f = Ok cands /\ In c cands /\
    lookup_candidate x lp input f c = Ok (Some m).

Lemma lookup_candidate_name x lp input f c m :
  lookup_candidate x lp input f c = Ok (Some m) ->
  exists i, ir_name (pr_intent m) = Some i /\ In i (lp_intents_names lp) /\
    match f with Some l => In i l | None => True end.
Proof.
  unfold lookup_candidate. destruct (hget _ _ _) as [output|]; [|discriminate]. unfold parse_map_output. intros H.
  bind_inv H. destruct (match f with Some l => smem a l | None => true end) eqn:W; [|discriminate].
  bind_inv H. inv H. exists a. split; [reflexivity|]. split; [eapply index_i32_ok; eauto|].
  destruct f; auto. apply smem_spec. exact W.
Qed.

Definition named (i : str) (r : InternalParsingResult) : bool :=
  match ir_name (pr_intent r) with Some j => str_eqb i j | None => false end.

Lemma group_add_get k r m i : sget i (group_add k r m) =
  if str_eqb i k then Some (match sget k m with Some l => l ++ [r] | None => [r] end) else sget i m.
Proof.
  unfold sget. induction m as [|[k' rs] m IH]; cbn [group_add hget].
  - destruct (str_eqb i k); reflexivity.
  - destruct (str_eqb k k') eqn:E.
    + apply str_eqb_spec in E. subst k'. cbn [hget]. destruct (str_eqb i k) eqn:E'; auto.
    + cbn [hget]. rewrite IH. destruct (str_eqb i k') eqn:E'; auto.
      apply str_eqb_spec in E'. subst k'.
      destruct (str_eqb i k) eqn:E''; auto. apply str_eqb_spec in E''. subst. rewrite str_eqb_refl in E. discriminate.
Qed.

Lemma group_add_keys k r m : hkeys (group_add k r m) = hkeys m \/
  (~ In k (hkeys m) /\ hkeys (group_add k r m) = hkeys m ++ [k]).
Proof.
  induction m as [|[k' rs] m IH]; cbn [group_add].
  - right. split; auto.
  - destruct (str_eqb k k') eqn:E; [left; reflexivity|]. simpl.
    destruct IH as [->|[N ->]]; [left; reflexivity|]. right. split; auto.
    intros [->|H]; auto. rewrite str_eqb_refl in E. discriminate.
Qed.

Lemma group_results_spec rs : forall i,
  sget i (group_results rs) = match filter (named i) rs with [] => None | l => Some l end.
Proof.
  unfold group_results.
  assert (G : forall rs m i, sget i (fold_left (fun m r => match ir_name (pr_intent r) with
                        | Some i => group_add i r m | None => m end) rs m)
     = match filter (named i) rs with [] => sget i m
       | l => Some (match sget i m with Some l0 => l0 | None => [] end ++ l) end).
  { clear rs. induction rs as [|r rs IH]; intros m i; [reflexivity|]. cbn [fold_left filter].
    rewrite IH. unfold named at 2. destruct (ir_name (pr_intent r)) as [j|] eqn:N; [|reflexivity].
    rewrite group_add_get. destruct (str_eqb i j) eqn:E; [|reflexivity].
    apply str_eqb_spec in E. subst j.
    destruct (filter (named i) rs) as [|a l]; destruct (sget i m) as [l0|]; try reflexivity.
    cbn [app]. rewrite <- app_assoc. reflexivity. }
  intros i. rewrite G. destruct (filter (named i) rs); reflexivity.
Qed.

Lemma group_results_NoDup rs : NoDup (hkeys (group_results rs)).
Proof.
  unfold group_results.
  assert (G : forall rs m, NoDup (hkeys m) -> NoDup (hkeys (fold_left (fun m r => match ir_name (pr_intent r) with
                        | Some i => group_add i r m | None => m end) rs m))).
  { clear rs. induction rs as [|r rs IH]; intros m ND; auto. cbn [fold_left]. apply IH.
    destruct (ir_name (pr_intent r)) as [j|]; auto.
    destruct (group_add_keys j r m) as [->|[N ->]]; auto.
    apply NoDup_app'; auto; [constructor; simpl; auto; constructor|]. intros z Hz [<-|[]]. auto. }
  apply G. constructor.
Qed.

Lemma result_weight_slots m : result_weight m = weight (slot_count m).
Proof. reflexivity. Qed.

Lemma weight_strict n k : fitting n -> fitting k -> fle (weight n) (weight k) = true \/ fle (weight k) (weight n) = true.
Proof.
  intros Hn Hk. destruct (weight_R n Hn) as (F & _), (weight_R k Hk) as (F' & _).
  destruct (RIneq.Rle_dec (BinarySingleNaN.B2R (weight n)) (BinarySingleNaN.B2R (weight k))).
  - left. apply fle_R; auto.
  - right. apply fle_R; auto. apply RIneq.Rlt_le. apply RIneq.Rnot_le_lt. exact n0.
Qed.

(** The best of several matches. *)
Lemma last_max_spec rs : rs <> [] -> countable rs ->
  exists m, last_max rs = Some m /\ In m rs /\
    forall m', In m' rs -> fle (weight (slot_count m')) (weight (slot_count m)) = true.
Proof.
  unfold last_max. intros NE C.
  assert (G : forall rs b, countable (b :: rs) ->
    exists m, fold_left (fun best r => match best with None => Some r
        | Some b => if fle (result_weight b) (result_weight r) then Some r else Some b end) rs (Some b) = Some m
      /\ In m (b :: rs) /\ forall m', In m' (b :: rs) -> fle (weight (slot_count m')) (weight (slot_count m)) = true).
  { clear. induction rs as [|r rs IH]; intros b C; cbn [fold_left].
    - exists b. split; auto. split; [left; auto|]. intros m' [<-|[]].
      destruct (weight_R (slot_count b) (C b (or_introl eq_refl))) as (F & _). apply fle_R; auto. apply RIneq.Rle_refl.
    - rewrite !result_weight_slots.
      assert (Cb := C b (or_introl eq_refl)). assert (Cr := C r (or_intror (or_introl eq_refl))).
      destruct (weight_R (slot_count b) Cb) as (Fb & _). destruct (weight_R (slot_count r) Cr) as (Fr & _).
      destruct (fle (weight (slot_count b)) (weight (slot_count r))) eqn:E.
      + destruct (IH r) as (m & Em & Hm & Max). { intros z Hz. apply C. right. exact Hz. }
        exists m. split; [exact Em|]. split; [destruct Hm; [right; left|right; right]; auto|].
        intros m' [<-|Hm']; [|apply Max; exact Hm'].
        assert (Cm : fitting (slot_count m)) by (apply C; destruct Hm; [right; left|right; right]; auto).
        destruct (weight_R (slot_count m) Cm) as (Fm & _).
        specialize (Max r (or_introl eq_refl)). apply fle_R in Max; auto. apply fle_R in E; auto. apply fle_R; auto.
        eapply RIneq.Rle_trans; eauto.
      + destruct (IH b) as (m & Em & Hm & Max). { intros z [<-|Hz]; apply C; [left|right; right]; auto. }
        exists m. split; [exact Em|]. split; [destruct Hm; [left|right; right]; auto|].
        intros m' [<-|[<-|Hm']]; [apply Max; left; auto| |apply Max; right; auto].
        assert (Cm : fitting (slot_count m)) by (apply C; destruct Hm; [left|right; right]; auto).
        destruct (weight_R (slot_count m) Cm) as (Fm & _).
        specialize (Max b (or_introl eq_refl)). apply fle_R in Max; auto. apply fle_R; auto.
        destruct (weight_strict _ _ Cb Cr) as [W|W]; [congruence|]. apply fle_R in W; auto.
        eapply RIneq.Rle_trans; eauto. }
  destruct rs as [|r rs]; [contradiction|]. cbn [fold_left]. apply G. exact C.
Qed.

Lemma last_max_In rs m : last_max rs = Some m -> In m rs.
Proof.
  unfold last_max.
  assert (G : forall rs b, fold_left (fun best r => match best with None => Some r
        | Some b => if fle (result_weight b) (result_weight r) then Some r else Some b end) rs b = Some m ->
      In m rs \/ b = Some m).
  { clear. induction rs as [|r rs IH]; intros b H; [right; exact H|]. cbn [fold_left] in H. apply IH in H as [H|H].
    - left. right. exact H.
    - destruct b as [b|]; [destruct (fle _ _)|]; inv H; simpl; auto. }
  intros H. apply G in H as [H|H]; [exact H|discriminate].
Qed.

Lemma lookup_matches_eq x ord lp input f : lookup_matches x ord lp input f =
  let* rs := candidate_results x lp input f in
  Ok (filter_map (fun kv => last_max (snd kv)) (reorder ord (group_results rs))).
Proof.
  unfold lookup_matches, candidate_results. destruct (get_candidates x lp input f) as [cands| |]; cbn [bind]; auto.
  destruct (mapM _ cands) as [opts| |]; cbn [bind]; auto. rewrite filter_map_present. reflexivity.
Qed.

Lemma candidate_results_In x lp input f rs m : candidate_results x lp input f = Ok rs -> In m rs ->
  from_candidate x lp input f m.
Proof.
  unfold candidate_results. intros H Hm. bind_inv H. rename a into cands. bind_inv H. rename a into opts. inv H.
  apply In_present_inv in Hm.
  destruct (mapM_In _ _ _ _ E0 Hm) as (c & Hc & Ec). exists cands, c. auto.
Qed.

Lemma candidate_results_name x lp input f rs m : candidate_results x lp input f = Ok rs -> In m rs ->
  exists i, ir_name (pr_intent m) = Some i /\ In i (lp_intents_names lp) /\
    match f with Some l => In i l | None => True end.
Proof.
  intros H Hm. destruct (candidate_results_In _ _ _ _ _ _ H Hm) as (cands & c & _ & _ & Ec).
  eapply lookup_candidate_name; eauto.
Qed.

Lemma In_filter_map {A B} (f : A -> option B) l b : In b (filter_map f l) <-> exists a, In a l /\ f a = Some b.
Proof.
  induction l as [|a l IH]; simpl.
  - split; [contradiction|]. intros (a & [] & _).
  - destruct (f a) as [b'|] eqn:E; simpl; rewrite IH; split.
    + intros [<-|(a' & H & Ha)]; [exists a; auto|exists a'; auto].
    + intros (a' & [->|H] & Ha); [left; congruence|right; eauto].
    + intros (a' & H & Ha). exists a'. auto.
    + intros (a' & [->|H] & Ha); [congruence|eauto].
Qed.

Lemma filter_map_perm {A B} (f : A -> option B) l l' : Permutation l l' -> Permutation (filter_map f l) (filter_map f l').
Proof.
  intros P. induction P; simpl; auto.
  - destruct (f x); auto.
  - destruct (f x), (f y); auto. apply perm_swap.
  - eapply perm_trans; eauto.
Qed.

Lemma lookup_matches_spec x ord lp input f ms :
  lookup_matches x ord lp input f = Ok ms ->
  exists rs, candidate_results x lp input f = Ok rs /\
    NoDup (map (fun m => ir_name (pr_intent m)) ms) /\
    (forall m, In m ms -> In m rs) /\
    (countable rs -> forall m, In m rs -> exists m', In m' ms /\
       ir_name (pr_intent m') = ir_name (pr_intent m) /\
       fle (weight (slot_count m)) (weight (slot_count m')) = true).
Proof.
  rewrite lookup_matches_eq. intros H. bind_inv H. rename a into rs. inv H. exists rs. split; auto.
  set (G := group_results rs).
  assert (NG : NoDup (hkeys (reorder ord G))).
  { eapply Permutation_NoDup; [apply Permutation_map; apply reorder_perm|]. apply group_results_NoDup. }
  assert (SG : forall i l, In (i, l) (reorder ord G) -> l = filter (named i) rs /\ l <> []).
  { intros i l H. apply reorder_In in H. apply sget_NoDup in H; [|apply group_results_NoDup].
    unfold G in H. rewrite group_results_spec in H. destruct (filter (named i) rs); inv H. split; [auto|discriminate]. }
  assert (NM : forall i l m, In (i, l) (reorder ord G) -> In m l -> In m rs /\ ir_name (pr_intent m) = Some i).
  { intros i l m H Hm. destruct (SG i l H) as [-> _]. apply filter_In in Hm as [Hm N]. split; auto.
    unfold named in N. destruct (ir_name (pr_intent m)); [|discriminate]. apply str_eqb_spec in N. congruence. }
  split; [|split].
  - assert (S : subseq (map (fun m => ir_name (pr_intent m)) (filter_map (fun kv => last_max (snd kv)) (reorder ord G)))
                       (map Some (hkeys (reorder ord G)))).
    { clear NG SG. induction (reorder ord G) as [|[i l] g IH]; simpl; [constructor|].
      assert (IH' : subseq (map (fun m => ir_name (pr_intent m)) (filter_map (fun kv => last_max (snd kv)) g)) (map Some (hkeys g))).
      { apply IH. intros j l' m H. apply (NM j l' m). right. exact H. }
      destruct (last_max l) as [m|] eqn:El; simpl; [|apply subseq_skip; exact IH'].
      apply last_max_In in El. destruct (NM i l m (or_introl eq_refl) El) as [_ ->]. apply subseq_keep. exact IH'. }
    eapply subseq_NoDup; [exact S|]. apply NoDup_map_Some. exact NG.
  - intros m H. apply In_filter_map in H as ([i l] & Hl & E'). simpl in E'. apply last_max_In in E'.
    eapply NM; eauto.
  - intros C m Hm. destruct (candidate_results_name _ _ _ _ _ _ E Hm) as (i & N & _).
    destruct (sget i G) as [l|] eqn:Gi.
    + apply sget_In in Gi. apply (reorder_In ord) in Gi. destruct (SG i l Gi) as [El NE].
      assert (Cl : countable l). { intros z Hz. apply C. eapply NM; eauto. }
      destruct (last_max_spec l NE Cl) as (m' & E' & Hm' & Max). exists m'. split; [|split].
      * apply In_filter_map. exists (i, l). auto.
      * destruct (NM i l m' Gi Hm') as [_ ->]. auto.
      * apply Max. subst l. apply filter_In. split; auto. unfold named. rewrite N. apply str_eqb_refl.
    + exfalso. unfold G in Gi. rewrite group_results_spec in Gi.
      assert (H : In m (filter (named i) rs)) by (apply filter_In; split; auto; unfold named; rewrite N; apply str_eqb_refl).
      destruct (filter (named i) rs); [contradiction|discriminate].
Qed.

Lemma lookup_matches_perm x ord ord' lp input f ms :
  lookup_matches x ord lp input f = Ok ms ->
  exists ms', lookup_matches x ord' lp input f = Ok ms' /\ Permutation ms ms'.
Proof.
  rewrite !lookup_matches_eq. intros H. bind_inv H. rewrite E. cbn [bind]. inv H. eexists. split; [reflexivity|].
  apply filter_map_perm. eapply perm_trans; [apply Permutation_sym|]; apply reorder_perm.
Qed.

Lemma lookup_parse_rule x ord lp input f ms :
  lookup_matches x ord lp input f = Ok ms -> countable ms ->
  exists r, lookup_parse x ord lp input f = Ok r /\ rule_answer ms r.
Proof.
  intros H C. unfold lookup_parse, lookup_parse_top. rewrite H. cbn [bind].
  destruct (rank_rule ms C) as (tops & -> & R). cbn [bind]. eauto.
Qed.

Lemma lookup_well_ranked x ord lp input n f ms :
  lookup_matches x ord lp input f = Ok ms -> countable ms ->
  exists tops, lookup_parse_top x ord lp input n f = Ok tops /\ well_ranked ms n tops.
Proof. intros H C. unfold lookup_parse_top. rewrite H. cbn [bind]. apply rank_well. exact C. Qed.

Lemma lookup_order_independent x ord ord' lp input f ms :
  lookup_matches x ord lp input f = Ok ms -> countable ms -> length ms <= 2 ->
  lookup_parse x ord lp input f = lookup_parse x ord' lp input f.
Proof.
  intros H C L. destruct (lookup_matches_perm x ord ord' lp input f ms H) as (ms' & H' & P).
  assert (C' : countable ms') by (intros m Hm; apply C; eapply Permutation_in; [apply Permutation_sym|]; eauto).
  unfold lookup_parse, lookup_parse_top. rewrite H, H'. cbn [bind].
  destruct (rank_rule ms C) as (t & Et & R). destruct (rank_rule ms' C') as (t' & Et' & R').
  rewrite Et, Et'. cbn [bind]. f_equal. exact (rule_parse_perm ms ms' _ t t' C L P Et Et' eq_refl).
Qed.

Lemma lookup_parse_from x ord lp input f r i :
  lookup_parse x ord lp input f = Ok r -> ir_name (pr_intent r) = Some i ->
  exists ms m, lookup_matches x ord lp input f = Ok ms /\ In m ms /\ r = scored ms m.
Proof.
  intros H N. unfold lookup_parse in H. bind_inv H. inv H. unfold lookup_parse_top in E. bind_inv E.
  destruct a as [|top rest]; [discriminate|]. unfold answer_of in *.
  destruct (fle _ fhalf) in *; [discriminate|].
  apply rank_ok_In with (r := top) in E; [|left; reflexivity]. apply in_map_iff in E as (m & <- & Hm). eauto.
Qed.

Lemma lookup_parse_none x ord lp input f r :
  lookup_parse x ord lp input f = Ok r -> ir_name (pr_intent r) = None -> r = no_intent.
Proof.
  intros H N. unfold lookup_parse in H. bind_inv H. inv H. unfold lookup_parse_top in E. bind_inv E.
  destruct a as [|top rest]; [reflexivity|]. unfold answer_of in *.
  destruct (fle _ fhalf) in *; [reflexivity|]. exfalso.
  apply rank_ok_In with (r := top) in E; [|left; reflexivity]. apply in_map_iff in E as (m & <- & Hm).
  destruct (lookup_matches_spec _ _ _ _ _ _ E0) as (rs & Hr & _ & Sub & _).
  destruct (candidate_results_name _ _ _ _ _ _ Hr (Sub m Hm)) as (i & Ni & _). simpl in N. congruence.
Qed.

Lemma lookup_honours x ord lp : honours_filter (lookup_intent_parser x ord lp).
Proof.
  unfold honours_filter, lookup_intent_parser. cbn [ip_parse]. intros input f r i H N.
  destruct (lookup_parse_from _ _ _ _ _ _ _ H N) as (ms & m & Hm & Hin & ->).
  destruct (lookup_matches_spec _ _ _ _ _ _ Hm) as (rs & Hr & _ & Sub & _).
  destruct (candidate_results_name _ _ _ _ _ _ Hr (Sub m Hin)) as (j & Nj & _ & W). simpl in N.
  assert (i = j) by congruence. subst. exact W.
Qed.

Lemma lookup_lists x ord lp input ms :
  NoDup (lp_intents_names lp) -> lookup_matches x ord lp input None = Ok ms -> countable ms ->
  exists l, lookup_get_intents x ord lp input = Ok l /\ lists_intents (lp_intents_names lp) ms l.
Proof.
  intros ND H C. destruct (lookup_matches_spec _ _ _ _ _ _ H) as (rs & Hr & NDm & Sub & _).
  destruct (rank_lists (lp_intents_names lp) ms) as (tops & Ht & Hl); auto.
  - intros m Hm. destruct (candidate_results_name _ _ _ _ _ _ Hr (Sub m Hm)) as (j & Nj & Hj & _). eauto.
  - unfold lookup_get_intents, lookup_parse_top. rewrite H. cbn [bind]. rewrite Ht. cbn [bind]. eauto.
Qed.

(** At most one match when one intent is asked for. *)
Lemma lookup_get_slots_spec x ord lp input intent rs :
  (~ In intent (lp_intents_names lp) -> lookup_get_slots x ord lp input intent = Err EUnknownIntent) /\
  (In intent (lp_intents_names lp) ->
   candidate_results x lp input (Some [intent]) = Ok rs -> countable rs ->
   (rs = [] -> lookup_get_slots x ord lp input intent = Ok []) /\
   (rs <> [] -> exists m, In m rs /\
      (forall m', In m' rs -> fle (weight (slot_count m')) (weight (slot_count m)) = true) /\
      lookup_get_slots x ord lp input intent = Ok (pr_slots m))).
Proof.
  unfold lookup_get_slots. split.
  - intros H. apply smem_false in H. rewrite H. reflexivity.
  - intros H Hr C. apply smem_spec in H. rewrite H. clear H.
    assert (Hm : exists ms, lookup_matches x ord lp input (Some [intent]) = Ok ms).
    { rewrite lookup_matches_eq, Hr. cbn [bind]. eauto. }
    destruct Hm as (ms & Hm). destruct (lookup_matches_spec _ _ _ _ _ _ Hm) as (rs' & Hr' & ND & Sub & Max).
    assert (rs' = rs) by congruence. subst rs'. specialize (Max C).
    assert (Cm : countable ms) by (intros m Hin; apply C, Sub; exact Hin).
    assert (All : forall m, In m ms -> ir_name (pr_intent m) = Some intent).
    { intros m Hin. destruct (candidate_results_name _ _ _ _ _ _ Hr (Sub m Hin)) as (j & Nj & _ & [<-|[]]). exact Nj. }
    destruct (lookup_parse_rule _ _ _ _ _ _ Hm Cm) as (r & -> & R). cbn [bind].
    destruct ms as [|m [|m2 ms]].
    + apply rule_answer_nil in R. subst r. split; auto. intros NE. exfalso.
      destruct rs as [|r0 rs]; [contradiction|]. destruct (Max r0 (or_introl eq_refl)) as (m & [] & _).
    + apply rule_answer_single in R; auto. subst r. cbn [pr_slots].
      assert (Hin := Sub m (or_introl eq_refl)). split; [intros ->; destruct Hin|]. intros _.
      exists m. split; auto. split; auto. intros m' Hm'. destruct (Max m' Hm') as (m'' & [<-|[]] & _ & F). exact F.
    + exfalso. simpl in ND. inv ND. apply H1. left. rewrite (All m), (All m2); simpl; auto.
Qed.

(** ** Slots of the lookup parser *)
Lemma subseq_firstn_combine {A B} (l : list A) (m : list B) : subseq (map snd (combine l m)) m.
Proof.
  revert m. induction l as [|a l IH]; intros [|b m]; simpl; try apply subseq_nil_l. apply subseq_keep. apply IH.
Qed.

Lemma me_eqb_spec a b : me_eqb a b = true <-> a = b.
Proof.
  unfold me_eqb. rewrite andb_true_iff, range_eqb_spec, str_eqb_spec. destruct a, b; simpl. split.
  - intros [-> ->]. reflexivity.
  - intros H. inv H. auto.
Qed.

Lemma candidate_eqb_spec a b : candidate_eqb a b = true <-> a = b.
Proof.
  unfold candidate_eqb. rewrite andb_true_iff, str_eqb_spec, (list_eqb_spec _ me_eqb_spec). destruct a, b; simpl. split.
  - intros [-> ->]. reflexivity.
  - intros H. inv H. auto.
Qed.

Lemma group_candidates_In x lp input f g cs c :
  group_candidates x lp input f g = Ok cs -> In c cs ->
  exists all, get_all_entities x lp input (gs_scope g) = Ok all /\ subseq (snd c) all.
Proof.
  unfold group_candidates. destruct (allowed_group f (gs_intents g)) as [|i0 is]; [intros H; inv H; contradiction|].
  intros H Hc. bind_inv H. rename a into all.
  assert (K := f_equal (fun o => match o with Ok l => l | _ => [] end) H). cbv beta iota in K.
  rewrite <- K in Hc. clear H K. exists all. split; auto.
  apply in_flat_map in Hc as (es & Hes & Hc). apply items_combinations_In in Hes.
  apply in_flat_map in Hc as (i & _ & [<-|[<-|[]]]); simpl; auto. apply subseq_nil_l.
Qed.

Lemma get_candidates_entities x lp input f cands c :
  get_candidates x lp input f = Ok cands -> In c cands ->
  exists g all, In g (lp_scopes lp) /\ get_all_entities x lp input (gs_scope g) = Ok all /\ subseq (snd c) all.
Proof.
  unfold get_candidates. intros H Hc. bind_inv H. rename a into ls. inv H.
  rewrite (unique_In _ candidate_eqb_spec) in Hc. apply in_concat in Hc as (cs & Hcs & Hc).
  destruct (mapM_In _ _ _ _ E Hcs) as (g & Hg & Eg). destruct (group_candidates_In _ _ _ _ _ _ _ Eg Hc) as (all & Ha & S).
  eauto.
Qed.

Lemma all_entities_detected x lp input g all :
  In g (lp_scopes lp) -> get_all_entities x lp input (gs_scope g) = Ok all ->
  ordered_disjoint (map me_range all) /\
  StronglySorted (fun a b => rstart (me_range a) <= rstart (me_range b) /\ ~ overlaps (me_range a) (me_range b)) all /\
  forall e, In e all -> detected x (lp_res lp) (lp_scopes lp) input e.
Proof.
  unfold get_all_entities. intros Hg H. bind_inv H. rename a into kinds. bind_inv H. rename a into bes.
  bind_inv H. rename a into ces. inv H. rewrite dedup_entities_resolve. split; [apply resolve_ordered|]. split.
  - eapply SS_impl; [|apply resolve_free]. simpl. intros a b _ _ [H1 H2]. split; auto. apply no_overlap_disjoint. exact H1.
  - intros e He. apply resolve_In in He. exists g, kinds, (map matched_of_builtin bes ++ map matched_of_custom ces).
    split; auto. split; [|split; auto; exists bes, ces; auto].
    apply mapM_ok_Forall2 in E. clear - E. induction E; constructor; auto.
    destruct (x_kind_of_identifier x x0); inv H. reflexivity.
Qed.

Lemma lookup_candidate_slots x lp input f c m :
  lookup_candidate x lp input f c = Ok (Some m) ->
  exists es, subseq es (snd c) /\
    Forall2 (fun s e => is_range s = me_range e /\ is_entity s = me_name e /\
               is_value s = substring input (me_range e) /\ In (is_slot_name s) (lp_slots_names lp))
      (pr_slots m) es.
Proof.
  unfold lookup_candidate. destruct (hget _ _ _) as [[i ss]|]; [|discriminate]. unfold parse_map_output. intros H.
  bind_inv H. destruct (match f with Some l => smem a l | None => true end); [|discriminate].
  bind_inv H. inv H. cbn [pr_slots fst snd] in *. exists (map snd (combine ss (snd c))).
  split; [apply subseq_firstn_combine|].
  apply mapM_ok_Forall2 in E0. clear - E0. induction E0; simpl; constructor; auto.
  bind_inv H. inv H. simpl. repeat split; auto. eapply index_i32_ok; eauto.
Qed.

Lemma lookup_slots_spec x ord lp input f r :
  lookup_parse x ord lp input f = Ok r ->
  ordered_disjoint (map is_range (pr_slots r)) /\
  forall s, In s (pr_slots r) ->
    is_value s = substring input (is_range s) /\ In (is_slot_name s) (lp_slots_names lp) /\
    exists e, detected x (lp_res lp) (lp_scopes lp) input e /\ is_range s = me_range e /\ is_entity s = me_name e.
Proof.
  intros H. destruct (ir_name (pr_intent r)) as [i|] eqn:N.
  - destruct (lookup_parse_from _ _ _ _ _ _ _ H N) as (ms & m & Hm & Hin & ->). cbn [scored pr_slots].
    destruct (lookup_matches_spec _ _ _ _ _ _ Hm) as (rs & Hr & _ & Sub & _).
    destruct (candidate_results_In _ _ _ _ _ _ Hr (Sub m Hin)) as (cands & c & Ec & Hc & Em).
    destruct (get_candidates_entities _ _ _ _ _ _ Ec Hc) as (g & all & Hg & Ha & S).
    destruct (all_entities_detected _ _ _ _ _ Hg Ha) as (_ & SS & D).
    destruct (lookup_candidate_slots _ _ _ _ _ _ Em) as (es & S' & F).
    assert (S'' : subseq es all) by (eapply subseq_trans; eauto). split.
    + unfold ordered_disjoint. apply (sorted_nth (fun a b => rstart a <= rstart b /\ ~ overlaps a b)).
      replace (map is_range (pr_slots m)) with (map me_range es).
      * apply SS_map. eapply subseq_sorted; eauto.
      * clear - F. induction F; simpl; auto. f_equal; auto. destruct H as (-> & _). reflexivity.
    + intros s Hs. apply (Forall2_In_l _ _ _ _ F) in Hs as (e & He & R & E & V & Nm). rewrite R.
      repeat split; auto. exists e. split; auto. apply D. eapply subseq_In; eauto.
  - rewrite (lookup_parse_none _ _ _ _ _ _ H N). cbn [no_intent pr_slots map]. split; [|intros s []].
    intros a b ra rb _ Ha. destruct a; discriminate.
Qed.

(** ** Crashes of the lookup parser *)
Lemma mapM_panic {A B} (f : A -> outcome B) l : (forall a, In a l -> forall e, f a <> Err e) ->
  (mapM f l = Panic <-> exists a, In a l /\ f a = Panic).
Proof.
  induction l as [|a l IH]; intros NE; simpl.
  - split; [discriminate|]. intros (a & [] & _).
  - destruct (f a) as [b|e|] eqn:E; cbn [bind].
    + assert (IH' := IH (fun a' H => NE a' (or_intror H))).
      destruct (mapM f l) as [bs|e|] eqn:M; cbn [bind].
      * split; [discriminate|]. intros (a' & [<-|H] & P); [congruence|].
        assert (C : Ok bs = Panic) by (apply IH'; eauto). discriminate.
      * split; [discriminate|]. intros (a' & [<-|H] & P); [congruence|].
        assert (C : Err e = @Panic (list B)) by (apply IH'; eauto). discriminate.
      * split; auto. intros _. destruct (proj1 IH' eq_refl) as (a' & H & P). eauto.
    + exfalso. apply (NE a (or_introl eq_refl) e E).
    + split; auto. intros _. eauto.
Qed.

Lemma mapM_no_err {A B} (f : A -> outcome B) l : (forall a, In a l -> forall e, f a <> Err e) ->
  forall e, mapM f l <> Err e.
Proof.
  induction l as [|a l IH]; intros NE e; simpl; [discriminate|].
  destruct (f a) eqn:E; cbn [bind]; try discriminate.
  - destruct (mapM f l) eqn:M; cbn [bind]; try discriminate.
    exfalso. apply (IH (fun a' H => NE a' (or_intror H)) e0). reflexivity.
  - exfalso. apply (NE a (or_introl eq_refl) e0 E).
Qed.

Lemma index_i32_no_err {A} (l : list A) id e : index_i32 l id <> Err e.
Proof. unfold index_i32, index. destruct (id <? 0)%Z; [discriminate|]. destruct (nth_error _ _); discriminate. Qed.

Lemma combine_fst_firstn {A B} (l : list A) (m : list B) : map fst (combine l m) = firstn (length m) l.
Proof. revert m. induction l as [|a l IH]; intros [|b m]; simpl; auto. f_equal. apply IH. Qed.

Lemma lookup_candidate_panic x lp input f c :
  (forall e, lookup_candidate x lp input f c <> Err e) /\
  (lookup_candidate x lp input f c = Panic <->
   exists i ss, hget Z.eqb (x_hash x (fst c)) (lp_map lp) = Some (i, ss) /\ bad_entry lp f i ss (length (snd c))).
Proof.
  unfold lookup_candidate. destruct (hget _ _ _) as [[i ss]|].
  2:{ split; [discriminate|]. split; [discriminate|]. intros (i & ss & D & _). discriminate. }
  unfold parse_map_output. cbn [fst snd].
  destruct (index_i32 (lp_intents_names lp) i) as [name|e|] eqn:I; cbn [bind].
  2:{ exfalso. eapply index_i32_no_err; eauto. }
  - set (g := fun se : Z * MatchedEntity => _).
    assert (NE : forall l a, In a l -> forall e, g a <> Err e).
    { intros l a _ e. unfold g. destruct (index_i32 (lp_slots_names lp) (fst a)) eqn:Ix; cbn [bind]; try discriminate.
      exfalso. eapply index_i32_no_err; eauto. }
    assert (V : valid_id (lp_intents_names lp) i) by (apply index_i32_panic; congruence).
    destruct (match f with Some l => smem name l | None => true end) eqn:W.
    + assert (W' : match f with Some l => In name l | None => True end).
      { destruct f; auto. apply smem_spec. exact W. }
      assert (MP := mapM_panic g (combine ss (snd c)) (NE _)).
      assert (ME := mapM_no_err g (combine ss (snd c)) (NE _)).
      destruct (mapM g (combine ss (snd c))) as [slots|e|]; cbn [bind].
      * split; [discriminate|]. split; [discriminate|]. intros (i' & ss' & D & [B|(nm & _ & _ & s & Hs & B)]); inv D; [contradiction|].
        exfalso. assert (C : Ok slots = Panic); [|discriminate]. apply MP.
        rewrite <- combine_fst_firstn in Hs. apply in_map_iff in Hs as (se & <- & Hs). exists se. split; auto.
        unfold g. destruct (index_i32 (lp_slots_names lp) (fst se)) eqn:Ix; cbn [bind]; auto.
        { exfalso. apply B. apply index_i32_panic. congruence. }
        { exfalso. eapply index_i32_no_err; eauto. }
      * exfalso. apply (ME e). reflexivity.
      * split; [discriminate|]. split; auto. intros _. exists i, ss. split; auto. right. exists name. split; auto. split; auto.
        destruct (proj1 MP eq_refl) as (se & Hs & P). exists (fst se). split.
        { rewrite <- combine_fst_firstn. apply in_map. exact Hs. }
        { intros V'. apply index_i32_panic in V'. unfold g in P.
          destruct (index_i32 (lp_slots_names lp) (fst se)); cbn [bind] in P; congruence. }
    + split; [discriminate|]. split; [discriminate|]. intros (i' & ss' & D & [B|(nm & Hn & Wn & _)]); inv D; [contradiction|].
      exfalso. assert (nm = name) by congruence. subst nm. destruct f; [|discriminate].
      apply smem_spec in Wn. congruence.
  - split; [discriminate|]. split; auto. intros _. exists i, ss. split; auto. left. intros V.
    apply index_i32_panic in V. contradiction.
Qed.

Lemma lookup_candidate_countable x lp input f c m :
  table_countable lp -> lookup_candidate x lp input f c = Ok (Some m) -> (Z.of_nat (slot_count m) < 2 ^ 64)%Z.
Proof.
  intros T H. unfold lookup_candidate in H. destruct (hget _ _ _) as [[i ss]|] eqn:G; [|discriminate].
  apply (hget_In _ (fun a b => Z.eqb_eq a b)) in G. specialize (T _ _ _ G).
  unfold parse_map_output in H. bind_inv H. destruct (match f with Some l => smem a l | None => true end); [|discriminate].
  bind_inv H. inv H. unfold slot_count. cbn [pr_slots]. apply mapM_ok_length in E0. rewrite E0. cbn [snd].
  rewrite combine_length. lia.
Qed.

Lemma lookup_panic_iff x ord lp input f cands :
  table_countable lp -> get_candidates x lp input f = Ok cands ->
  (forall e, lookup_parse x ord lp input f <> Err e) /\
  (lookup_parse x ord lp input f = Panic <->
   exists c i ss, In c cands /\ hget Z.eqb (x_hash x (fst c)) (lp_map lp) = Some (i, ss) /\
     bad_entry lp f i ss (length (snd c))).
Proof.
  intros T G.
  assert (MP := mapM_panic (lookup_candidate x lp input f) cands (fun c _ => proj1 (lookup_candidate_panic x lp input f c))).
  assert (ME := mapM_no_err (lookup_candidate x lp input f) cands (fun c _ => proj1 (lookup_candidate_panic x lp input f c))).
  assert (EQ : (exists a, In a cands /\ lookup_candidate x lp input f a = Panic) <->
     (exists c i ss, In c cands /\ hget Z.eqb (x_hash x (fst c)) (lp_map lp) = Some (i, ss) /\
     bad_entry lp f i ss (length (snd c)))).
  { split.
    - intros (c & Hc & P). apply lookup_candidate_panic in P as (i & ss & H1 & H2). eauto 6.
    - intros (c & i & ss & Hc & H1 & H2). exists c. split; auto. apply lookup_candidate_panic. eauto. }
  rewrite <- EQ, <- MP. clear EQ MP.
  destruct (mapM (lookup_candidate x lp input f) cands) as [opts|e|] eqn:M.
  - assert (CR : candidate_results x lp input f = Ok (present opts)) by (unfold candidate_results; rewrite G; cbn [bind]; rewrite M; reflexivity).
    assert (LM : exists ms, lookup_matches x ord lp input f = Ok ms) by (rewrite lookup_matches_eq, CR; cbn [bind]; eauto).
    destruct LM as (ms & LM). destruct (lookup_matches_spec _ _ _ _ _ _ LM) as (rs & CR' & _ & Sub & _).
    assert (C : countable ms).
    { intros m Hm. destruct (candidate_results_In _ _ _ _ _ _ CR' (Sub m Hm)) as (cs & c & _ & _ & Em).
      eapply lookup_candidate_countable; eauto. }
    destruct (lookup_parse_rule _ _ _ _ _ _ LM C) as (r & -> & _). split; [discriminate|]. split; discriminate.
  - exfalso. apply (ME e). reflexivity.
  - assert (E : lookup_parse x ord lp input f = Panic).
    { unfold lookup_parse, lookup_parse_top. rewrite lookup_matches_eq. unfold candidate_results. rewrite G. cbn [bind].
      rewrite M. reflexivity. }
    rewrite E. split; [discriminate|]. tauto.
Qed.

Lemma lookup_no_panic x ord lp input f cands :
  table_ok lp -> get_candidates x lp input f = Ok cands -> exists r, lookup_parse x ord lp input f = Ok r.
Proof.
  intros T G. assert (TC : table_countable lp) by (intros h i ss H; apply (T h i ss H)).
  destruct (lookup_panic_iff x ord lp input f cands TC G) as [NE P].
  destruct (lookup_parse x ord lp input f) as [r|e|]; eauto.
  - exfalso. apply (NE e). reflexivity.
  - exfalso. destruct (proj1 P eq_refl) as (c & i & ss & _ & H & B).
    apply (hget_In _ (fun a b => Z.eqb_eq a b)) in H. destruct (T _ _ _ H) as (V & VS & _).
    destruct B as [B|(nm & _ & _ & s & Hs & B)]; [contradiction|]. apply B, VS.
    eapply subseq_In; [apply subseq_firstn|exact Hs].
Qed.

(** ** Order of the hash maps of the deterministic parser *)
Lemma compile_keys compile ps rs : compile_regexes compile ps = Ok rs -> map fst rs = map fst ps.
Proof.
  unfold compile_regexes. intros H. apply mapM_ok_Forall2 in H. induction H as [|p r ps rs H F IH]; simpl; auto.
  bind_inv H. inv H. f_equal. exact IH.
Qed.

Lemma get_matching_mapping x dp dp' input s r i mp mp' :
  dp_groups dp = dp_groups dp' -> dp_slots dp = dp_slots dp' -> dp_lang dp = dp_lang dp' ->
  (forall g, match mp with Some m => restore_range m g | None => g end
           = match mp' with Some m => restore_range m g | None => g end) ->
  get_matching_result x dp input s r i mp = get_matching_result x dp' input s r i mp'.
Proof.
  intros E1 E2 E3 H. unfold get_matching_result. rewrite E3. destruct (r s); auto.
  erewrite mapM_ext; [reflexivity|]. intros g _. unfold slot_of_group. rewrite E1, E2.
  destruct (sindex _ (dp_groups dp')); auto. cbn [bind]. destruct (sindex i (dp_slots dp')); auto. cbn [bind].
  destruct (sindex _ a0); auto. cbn [bind]. rewrite H. reflexivity.
Qed.

Lemma first_match_mapping x dp dp' input c cf i mp mp' rs :
  dp_groups dp = dp_groups dp' -> dp_slots dp = dp_slots dp' -> dp_lang dp = dp_lang dp' ->
  (forall g, restore_range mp g = restore_range mp' g) ->
  first_match x dp input c cf i mp rs = first_match x dp' input c cf i mp' rs.
Proof.
  intros E1 E2 E3 H. induction rs as [|r rs IH]; simpl; auto.
  rewrite (get_matching_mapping x dp dp' input c r i None None) by auto.
  destruct (get_matching_result x dp' input c r i None) as [[m|]| |]; auto. cbn [bind].
  rewrite (get_matching_mapping x dp dp' input cf r i (Some mp) (Some mp')) by auto.
  destruct (get_matching_result x dp' input cf r i (Some mp')) as [[m|]| |]; auto.
Qed.

Lemma match_intent_order x lang_of compile o1 o2 o3 o1' o2' o3' ord ord' m res dp dp' input i sc :
  NoDup (map fst (dm_patterns m)) -> NoDup (map fst (dm_stop_whitelist m)) ->
  builtin_parser_ok (rs_builtin res) input -> custom_parser_ok (rs_custom res) input ->
  det_new x lang_of compile o1 o2 o3 m res = Ok dp ->
  det_new x lang_of compile o1' o2' o3' m res = Ok dp' ->
  texts_short x dp input -> In (i, sc) (dp_scopes dp) ->
  match_intent x ord dp input i sc = match_intent x ord' dp' input i sc.
Proof.
  intros ND1 ND2 BP CP H H' [L Lf] Hsc. unfold det_new in H, H'. bind_inv H. rename a into l. bind_inv H. rename a into rs.
  rewrite E0 in H'. rewrite E in H'. cbn [bind] in H'. inv H. inv H'. clear E.
  cbn [dp_scopes dp_res] in *.
  set (stop := if dm_ignore_stop_words m then rs_stop_words res else []) in *.
  set (sp := specific_stop_words stop (dm_stop_whitelist m)) in *.
  set (sc0 := map _ (dm_slots m)) in *.
  set (dp := mkDP l (reorder o1 rs) _ _ _ _ _ _) in *. set (dp' := mkDP l (reorder o1' rs) _ _ _ _ _ _) in *.
  assert (GP : forall V (m : list (str * V)) o o' k, NoDup (hkeys m) -> sget k (reorder o m) = sget k (reorder o' m)).
  { intros V m0 o o' k ND. unfold sget. apply (hget_perm _ str_eqb_spec).
    - eapply Permutation_NoDup; [apply Permutation_map; apply reorder_perm|]. exact ND.
    - eapply perm_trans; [apply Permutation_sym|]; apply reorder_perm. }
  assert (PR : forall s, det_preprocess x dp s i = det_preprocess x dp' s i).
  { intros s. unfold det_preprocess, dp, dp'. cbn [dp_stop dp_specific_stop dp_lang]. unfold stop_words_of.
    rewrite (GP _ sp o2 o2'); [reflexivity|]. unfold sp, specific_stop_words, hkeys. rewrite map_map. exact ND2. }
  unfold match_intent. change (dp_res dp) with res. change (dp_res dp') with res.
  destruct (rs_builtin res input (Some (fst sc)) true 0) as [bes| |] eqn:Eb; auto. cbn [bind].
  destruct (rs_custom res input (Some (snd sc)) 0) as [ces| |] eqn:Ec; auto. cbn [bind].
  set (es := map matched_of_builtin bes ++ map matched_of_custom ces).
  assert (EF : entities_found res input sc es) by (exists bes, ces; auto).
  destruct (replace_entities input es (get_entity_placeholder x)) as [mapping formatted] eqn:RE.
  rewrite !PR. destruct (det_preprocess x dp' input i); auto. cbn [bind].
  destruct (det_preprocess x dp' formatted i); auto. cbn [bind].
  change (dp_regexes dp) with (reorder o1 rs). change (dp_regexes dp') with (reorder o1' rs).
  rewrite (GP _ rs o1 o1') by (unfold hkeys; rewrite (compile_keys _ _ _ E0); exact ND1).
  destruct (sget i (reorder o1' rs)); auto. cbn [ok_or bind].
  apply first_match_mapping; auto. intros g.
  eapply restore_order_spec; eauto using found_ok.
Qed.

Lemma Permutation_filter' {A} (p : A -> bool) l l' : Permutation l l' -> Permutation (filter p l) (filter p l').
Proof.
  intros P. induction P; simpl; auto.
  - destruct (p x); auto.
  - destruct (p x), (p y); auto. apply perm_swap.
  - eapply perm_trans; eauto.
Qed.

Lemma det_matches_order x lang_of compile o1 o2 o3 o1' o2' o3' ord ord' m res dp dp' input f ms :
  NoDup (map fst (dm_patterns m)) -> NoDup (map fst (dm_stop_whitelist m)) ->
  builtin_parser_ok (rs_builtin res) input -> custom_parser_ok (rs_custom res) input ->
  det_new x lang_of compile o1 o2 o3 m res = Ok dp ->
  det_new x lang_of compile o1' o2' o3' m res = Ok dp' ->
  texts_short x dp input ->
  det_matches x ord dp input f = Ok ms ->
  exists ms', det_matches x ord' dp' input f = Ok ms' /\ Permutation ms ms'.
Proof.
  intros ND1 ND2 BP CP H H' T HM. unfold det_matches in HM. bind_inv HM. rename a into opts. inv HM.
  assert (P : Permutation (considered dp f) (considered dp' f)).
  { unfold det_new in H, H'. bind_inv H. bind_inv H. bind_inv H'. bind_inv H'. inv H. inv H'.
    unfold considered. cbn [dp_scopes dp_slots]. apply Permutation_filter'.
    eapply perm_trans; [apply Permutation_sym|]; apply reorder_perm. }
  rewrite (mapM_ext _ (fun e => match_intent x ord' dp' input (fst e) (snd e))) in E.
  - destruct (Permutation_mapM _ _ _ _ P E) as (opts' & E' & P'). unfold det_matches. rewrite E'. cbn [bind].
    eexists. split; [reflexivity|]. apply filter_map_perm. exact P'.
  - intros [i sc] Hin. apply considered_In in Hin as [Hin _]. simpl. eapply match_intent_order; eauto.
Qed.

Lemma det_order_independent x lang_of compile o1 o2 o3 o1' o2' o3' ord ord' m res dp dp' input f ms :
  NoDup (map fst (dm_patterns m)) -> NoDup (map fst (dm_stop_whitelist m)) ->
  builtin_parser_ok (rs_builtin res) input -> custom_parser_ok (rs_custom res) input ->
  det_new x lang_of compile o1 o2 o3 m res = Ok dp ->
  det_new x lang_of compile o1' o2' o3' m res = Ok dp' ->
  texts_short x dp input ->
  det_matches x ord dp input f = Ok ms -> countable ms -> length ms <= 2 ->
  det_parse x ord dp input f = det_parse x ord' dp' input f.
Proof.
  intros ND1 ND2 BP CP N N' T H C L.
  destruct (det_matches_order _ _ _ _ _ _ _ _ _ _ ord' _ _ _ _ _ _ _ ND1 ND2 BP CP N N' T H) as (ms' & H' & P).
  assert (C' : countable ms') by (intros m0 Hm; apply C; eapply Permutation_in; [apply Permutation_sym|]; eauto).
  unfold det_parse, det_parse_top. rewrite H, H'. cbn [bind].
  destruct (rank_rule ms C) as (t & Et & R). destruct (rank_rule ms' C') as (t' & Et' & R').
  rewrite Et, Et'. cbn [bind]. f_equal. exact (rule_parse_perm ms ms' _ t t' C L P Et Et' eq_refl).
Qed.
