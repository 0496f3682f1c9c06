(** Proofs for C82: the list of the intents. *)
From Coq Require Import String List NArith ZArith Bool Arith Lia Permutation FunctionalExtensionality Sorted.
From Flocq Require Import IEEE754.BinarySingleNaN.
From Verif Require Import Base Sorting F32 M_Types M_Utils M_Engine M_Det M_Lookup M_Feat M_Prob M_Features M_Crf M_Filler M_Cache M_Res M_Fs M_Json M_Load
  S_Base S_Utils S_Engine S_Det S_Rank S_Rules S_Load S_Match S_Answer S_Made S_Seeds
  P_Base P_F32 P_Utils P_Engine P_Feat P_Det P_Rank P_Rules P_Match P_MatchDet P_Load P_Made P_Seeds P_SeedsRules P_SeedsEngine.
Import ListNotations.
Local Open Scope list_scope.
Local Open Scope nat_scope.

Local Notation oget := (hget opt_str_eqb).

(** One result for a name. *)
Definition functional (l : list IntentResult) : Prop := forall a b, In a l -> In b l -> ir_name a = ir_name b -> a = b.
Definition result_for (k : option str) (l : list IntentResult) : option IntentResult := find (fun r => opt_str_eqb k (ir_name r)) l.

Lemma result_for_some k l r : result_for k l = Some r -> In r l /\ ir_name r = k.
Proof. intros H. apply find_some in H as [H E]. apply opt_str_eqb_spec in E. auto. Qed.
Lemma result_for_none k l : result_for k l = None -> forall r, In r l -> ir_name r <> k.
Proof.
  intros H r Hr E. pose proof (find_none _ _ H r Hr) as F. cbv beta in F. rewrite E in F.
  rewrite (proj2 (opt_str_eqb_spec k k) eq_refl) in F. discriminate.
Qed.
Lemma result_for_perm k l l' : functional l -> Permutation l l' -> result_for k l = result_for k l'.
Proof.
  intros F P. destruct (result_for k l) as [r|] eqn:E; destruct (result_for k l') as [r'|] eqn:E'; auto.
  - apply result_for_some in E as [I N]. apply result_for_some in E' as [I' N']. f_equal. apply F; auto; [|congruence].
    eapply Permutation_in; [apply Permutation_sym|]; eauto.
  - apply result_for_some in E as [I N]. exfalso. apply (result_for_none _ _ E' r); auto. eapply Permutation_in; eauto.
  - apply result_for_some in E' as [I N]. exfalso. apply (result_for_none _ _ E r'); auto. eapply Permutation_in; [apply Permutation_sym|]; eauto.
Qed.
Lemma functional_tl a l : functional (a :: l) -> functional l.
Proof. intros H b c Hb Hc. apply H; right; auto. Qed.

Lemma flt_irrefl a : flt a a = false.
Proof.
  destruct a as [s|s| |s m e H]; unfold flt; cbn; try (destruct s; reflexivity); auto.
  rewrite Z.compare_refl, Pos.compare_cont_refl. destruct s; reflexivity.
Qed.

(** ** Merging *)
Definition old_score (k : option str) (m : list (option str * IntentResult)) : f32 :=
  match oget k m with Some e => ir_score e | None => f0 end.
Lemma merge_one_get m r k : keyed m ->
  oget k (merge_one m r) = if opt_str_eqb k (ir_name r) && flt (old_score k m) (ir_score r) then Some r else oget k m.
Proof.
  intros K. rewrite merge_one_insert by exact K. destruct (opt_str_eqb k (ir_name r)) eqn:E.
  - apply opt_str_eqb_spec in E. subst k. fold (old_score (ir_name r) m). cbn [andb].
    destruct (flt (old_score (ir_name r) m) (ir_score r)); auto. apply hget_insert_eq, opt_str_eqb_spec.
  - cbn [andb]. apply (eqb_false _ opt_str_eqb_spec) in E. destruct (flt _ _); auto.
    apply hget_insert_neq; [apply opt_str_eqb_spec|auto].
Qed.
Lemma merge_fold_get l : forall m k, functional l -> keyed m ->
  oget k (fold_left merge_one l m) =
  match result_for k l with
  | Some r => if flt (old_score k m) (ir_score r) then Some r else oget k m
  | None => oget k m
  end.
Proof.
  induction l as [|a l IH]; intros m k F K; auto. cbn [fold_left]. rewrite IH; [|exact (functional_tl _ _ F)|apply keyed_merge_one; exact K].
  unfold old_score at 1. rewrite merge_one_get by exact K. unfold result_for. cbn [find]. fold (result_for k l).
  destruct (opt_str_eqb k (ir_name a)) eqn:E.
  - cbn [andb]. apply opt_str_eqb_spec in E. destruct (result_for k l) as [r|] eqn:Er.
    + apply result_for_some in Er as [I N]. assert (r = a) by (apply F; [right; auto|left; auto|congruence]). subst r.
      destruct (flt (old_score k m) (ir_score a)) eqn:Q; [rewrite flt_irrefl; reflexivity|]. fold (old_score k m). rewrite Q. reflexivity.
    + reflexivity.
  - cbn [andb]. reflexivity.
Qed.
Lemma merge_first_for l k : functional l -> oget k (merge_first l) = result_for k l.
Proof.
  unfold merge_first, hcollect. intros F.
  assert (G : forall l m, functional l -> oget k (fold_left (fun m kv => hinsert opt_str_eqb (fst kv) (snd kv) m) (map (fun r => (ir_name r, r)) l) m)
                = match result_for k l with Some r => Some r | None => oget k m end).
  { clear. induction l as [|a l IH]; intros m F; auto. cbn [map fold_left fst snd]. rewrite IH by exact (functional_tl _ _ F).
    unfold result_for. cbn [find]. fold (result_for k l). destruct (opt_str_eqb k (ir_name a)) eqn:E.
    - apply opt_str_eqb_spec in E. destruct (result_for k l) as [r|] eqn:Er.
      + apply result_for_some in Er as [I N]. f_equal. apply F; [right; auto|left; auto|congruence].
      + rewrite E. apply hget_insert_eq, opt_str_eqb_spec.
    - apply (eqb_false _ opt_str_eqb_spec) in E. rewrite hget_insert_neq; [reflexivity|apply opt_str_eqb_spec|auto]. }
  rewrite G by exact F. simpl. destruct (result_for k l); reflexivity.
Qed.

Definition same_merge (m m' : list (option str * IntentResult)) : Prop := keyed m /\ keyed m' /\ forall k, oget k m = oget k m'.
Lemma same_merge_perm m m' : same_merge m m' -> Permutation m m'.
Proof.
  intros (K & K' & E). apply NoDup_Permutation.
  - apply (NoDup_map_inv fst). exact (proj1 K).
  - apply (NoDup_map_inv fst). exact (proj1 K').
  - intros [k r]. split; intros H.
    + apply (hget_In _ opt_str_eqb_spec). rewrite <- E. apply hget_NoDup; [apply opt_str_eqb_spec|apply K|exact H].
    + apply (hget_In _ opt_str_eqb_spec). rewrite E. apply hget_NoDup; [apply opt_str_eqb_spec|apply K'|exact H].
Qed.

Definition same_list (l l' : list IntentResult) : Prop := l = l' \/ (Permutation l l' /\ functional l).
Lemma functional_perm l l' : Permutation l l' -> functional l -> functional l'.
Proof. intros P F a b Ha Hb. apply F; eapply Permutation_in; try apply Permutation_sym; eauto. Qed.

Lemma merge_step_same l l' m m' : same_list l l' -> same_merge m m' ->
  same_merge (match m with [] => merge_first l | _ => fold_left merge_one l m end)
             (match m' with [] => merge_first l' | _ => fold_left merge_one l' m' end).
Proof.
  intros S M. pose proof (same_merge_perm _ _ M) as P.
  assert (D : (m = [] /\ m' = []) \/ (exists a r a' r', m = a :: r /\ m' = a' :: r')).
  { destruct m as [|a r], m' as [|a' r']; auto.
    - apply Permutation_nil in P. discriminate.
    - apply Permutation_sym, Permutation_nil in P. discriminate.
    - right. eauto 6. }
  destruct D as [[-> ->]|D].
  - destruct S as [<-|[Pl F]].
    + split; [apply keyed_merge_first|]. split; [apply keyed_merge_first|auto].
    + split; [apply keyed_merge_first|]. split; [apply keyed_merge_first|]. intros k.
      rewrite !merge_first_for; eauto using functional_perm. apply result_for_perm; auto.
  - assert (G : same_merge (fold_left merge_one l m) (fold_left merge_one l' m')).
    { clear P D. destruct M as (K & K' & E). split; [apply keyed_merge_fold; auto|]. split; [apply keyed_merge_fold; auto|].
      destruct S as [<-|[Pl F]].
      - revert m m' K K' E. induction l as [|a l IH]; intros m m' K K' E; auto. cbn [fold_left].
        apply IH; try (apply keyed_merge_one; auto). intros k. rewrite !merge_one_get by auto. unfold old_score. rewrite E. reflexivity.
      - intros k. rewrite !merge_fold_get; eauto using functional_perm. unfold old_score. rewrite E, (result_for_perm k l l' F Pl). reflexivity. }
    destruct D as (a & r & a' & r' & -> & ->). exact G.
Qed.

Lemma merge_same input ps : forall ps' m m',
  Forall2 (fun ip ip' => both same_list (ip_get_intents ip input) (ip_get_intents ip' input)) ps ps' -> same_merge m m' ->
  both same_merge (merge_intents input ps m) (merge_intents input ps' m').
Proof.
  induction ps as [|ip ps IH]; intros ps' m m' F M; inversion F as [|? ip' ? ps'' H F' E1 E2]; subst; [exact M|].
  cbn [merge_intents]. eapply both_bind; [exact H|]. intros l l' _ _ S. apply IH; [exact F'|]. apply merge_step_same; auto.
Qed.

Lemma sort_same l l' : Permutation l l' -> both (@Permutation _) (sort_desc ir_score l) (sort_desc ir_score l').
Proof.
  intros P. unfold sort_desc. rewrite (Permutation_length P), (existsb_perm _ _ _ P). destruct (_ && _); [exact I|].
  simpl. eapply Permutation_trans; [apply Permutation_sym, isort_perm|]. eapply Permutation_trans; [exact P|apply isort_perm].
Qed.

(** Without ties the list is determined by its elements. *)
Lemma fle_both_feq a b : fle a b = true -> fle b a = true -> feq a b = true.
Proof.
  unfold fle, feq, Bleb, Beqb, SpecFloat.SFleb, SpecFloat.SFeqb. change (SpecFloat.SFcompare (B2SF b) (B2SF a)) with (Bcompare b a).
  change (SpecFloat.SFcompare (B2SF a) (B2SF b)) with (Bcompare a b).
  rewrite (Bcompare_swap _ _ a b). destruct (Bcompare a b) as [[]|]; simpl; congruence.
Qed.
Lemma sorted_no_ties l l' : (forall r r', In r l -> In r' l -> feq (ir_score r) (ir_score r') = true -> r = r') ->
  StronglySorted (fun a b => fle (ir_score b) (ir_score a) = true) l ->
  StronglySorted (fun a b => fle (ir_score b) (ir_score a) = true) l' -> Permutation l l' -> l = l'.
Proof.
  revert l'. induction l as [|a l IH]; intros l' T S S' P.
  - symmetry. apply Permutation_nil, P.
  - destruct l' as [|b l']; [apply Permutation_sym, Permutation_nil in P; discriminate P|].
    inversion S as [|? ? S1 F1]; inversion S' as [|? ? S2 F2]; subst. rewrite Forall_forall in F1, F2.
    assert (E : a = b).
    { assert (Ha : In a (b :: l')) by (eapply Permutation_in; [exact P|left; auto]).
      assert (Hb : In b (a :: l)) by (eapply Permutation_in; [apply Permutation_sym, P|left; auto]).
      destruct Ha as [Ha|Ha]; auto. destruct Hb as [Hb|Hb]; auto.
      apply T; [left; reflexivity|right; exact Hb|]. apply fle_both_feq; auto. }
    subst b. f_equal. apply IH; auto; [intros r r' H H'; apply T; right; auto|]. eapply Permutation_cons_inv, P.
Qed.

(** ** Lists of the rule based parsers *)
Lemma rank_same n n' ms ms' : n = n' -> length ms <= n -> countable ms -> length ms <= 2 -> Permutation ms ms' ->
  exists tops tops', rank_results n ms = Ok tops /\ rank_results n' ms' = Ok tops' /\ Permutation tops tops' /\
    Permutation (map (scored ms) ms) tops.
Proof.
  intros <- Ln C L2 P. assert (C' : countable ms') by (intros m Hm; apply C; eapply Permutation_in; [apply Permutation_sym|]; eauto).
  destruct (rank_ok n ms C) as (s & H & Ps & _). destruct (rank_ok n ms' C') as (s' & H' & Ps' & _).
  rewrite firstn_all2 in H by (rewrite <- (Permutation_length Ps), map_length; exact Ln).
  rewrite firstn_all2 in H' by (rewrite <- (Permutation_length Ps'), map_length, <- (Permutation_length P); exact Ln).
  exists s, s'. split; auto. split; auto. split; auto.
  eapply Permutation_trans; [apply Permutation_sym; exact Ps|]. eapply Permutation_trans; [|exact Ps'].
  rewrite (map_ext_in (scored ms) (scored ms')).
  - apply Permutation_map. exact P.
  - intros m _. unfold scored. rewrite (share_perm2 ms ms' m C L2 P). reflexivity.
Qed.

Lemma complete_same names names' tops tops' : Permutation names names' -> Permutation tops tops' ->
  Permutation (complete_intents names tops) (complete_intents names' tops').
Proof.
  intros Pn Pt. unfold complete_intents. apply Permutation_app; auto. apply Permutation_app; auto. apply Permutation_map.
  rewrite (filter_ext (fun i => negb (smem i (filter_map ir_name tops))) (fun i => negb (smem i (filter_map ir_name tops')))).
  - apply Permutation_filter'. exact Pn.
  - intros i. rewrite (smem_perm i _ (filter_map ir_name tops')); auto. apply filter_map_perm. exact Pt.
Qed.

Lemma filter_map_In {A B} (g : A -> option B) l b : In b (filter_map g l) <-> exists a, In a l /\ g a = Some b.
Proof.
  induction l as [|a l IH]; simpl; [split; [contradiction|intros (? & [] & _)]|]. destruct (g a) eqn:E; simpl; rewrite IH; split.
  - intros [<-|(a' & H & E')]; eauto.
  - intros (a' & [<-|H] & E'); [left; congruence|right; eauto].
  - intros (a' & H & E'); eauto.
  - intros (a' & [<-|H] & E'); [congruence|eauto].
Qed.

Lemma complete_functional names ms tops :
  NoDup (map (fun r => ir_name (pr_intent r)) ms) -> (forall r, In r ms -> exists i, ir_name (pr_intent r) = Some i) ->
  Permutation (map (scored ms) ms) tops -> functional (complete_intents names (map pr_intent tops)).
Proof.
  intros N S P.
  assert (T : forall r, In r (map pr_intent tops) -> exists m, In m ms /\ r = pr_intent (scored ms m)).
  { intros r Hr. apply in_map_iff in Hr as (t & <- & Ht). eapply Permutation_in in Ht; [|apply Permutation_sym; exact P].
    apply in_map_iff in Ht as (m & <- & Hm). eauto. }
  assert (Tn : forall r, In r (map pr_intent tops) -> exists i, ir_name r = Some i /\ In i (filter_map ir_name (map pr_intent tops))).
  { intros r Hr. destruct (T r Hr) as (m & Hm & Er). destruct (S m Hm) as (i & Ei). exists i. subst r. split; [exact Ei|].
    apply filter_map_In. eexists. split; [exact Hr|exact Ei]. }
  assert (K : forall r, In r (complete_intents names (map pr_intent tops)) ->
     In r (map pr_intent tops) \/ (exists i, r = mkIR (Some i) f0 /\ ~ In i (filter_map ir_name (map pr_intent tops))) \/ r = mkIR None f0).
  { intros r. unfold complete_intents. rewrite !in_app_iff. intros [H|[H|[H|[]]]]; auto. right. left.
    apply in_map_iff in H as (i & <- & Hi). apply filter_In in Hi as [_ Hi]. apply negb_true_iff, smem_false in Hi. eauto. }
  intros a b Ha Hb E. apply K in Ha, Hb.
  destruct Ha as [Ha|[(i & -> & Ni)| ->]], Hb as [Hb|[(j & -> & Nj)| ->]]; cbn [ir_name] in *; try discriminate; auto.
  - destruct (T a Ha) as (m & Hm & ->), (T b Hb) as (m' & Hm' & ->). cbn [scored pr_intent ir_name] in *.
    assert (m = m') by (apply (NoDup_map_inj _ _ N); auto). subst. reflexivity.
  - exfalso. destruct (Tn a Ha) as (i & Ei & Hi). assert (i = j) by congruence. subst. auto.
  - exfalso. destruct (Tn a Ha) as (i & Ei & Hi). congruence.
  - exfalso. destruct (Tn b Hb) as (j & Ej & Hj). assert (i = j) by congruence. subst. auto.
  - congruence.
  - exfalso. destruct (Tn b Hb) as (j & Ej & Hj). congruence.
Qed.

(** Both lists, from matches in two orders. *)
Lemma listed_same names names' n n' ms ms' :
  Permutation names names' -> n = length names -> n' = length names' ->
  NoDup (map (fun r => ir_name (pr_intent r)) ms) -> (forall r, In r ms -> exists i, ir_name (pr_intent r) = Some i /\ In i names) ->
  countable ms -> length ms <= 2 -> Permutation ms ms' ->
  both same_list (let* tops := rank_results n ms in Ok (complete_intents names (map pr_intent tops)))
                 (let* tops := rank_results n' ms' in Ok (complete_intents names' (map pr_intent tops))).
Proof.
  intros Pn -> -> N S C L2 P.
  assert (Ln : length ms <= length names).
  { rewrite <- (map_length (fun m => ir_name (pr_intent m)) ms), <- (map_length (@Some str) names).
    apply NoDup_incl_length; auto. intros k Hm. apply in_map_iff in Hm as (m & <- & Hm).
    destruct (S m Hm) as (i & -> & Hi). apply in_map. exact Hi. }
  destruct (rank_same (length names) (length names') ms ms') as (t & t' & -> & -> & Pt & Ps); auto; [apply Permutation_length; exact Pn|].
  cbn [bind both]. right. split.
  - apply complete_same; auto. apply Permutation_map. exact Pt.
  - eapply complete_functional; eauto. intros r Hr. destruct (S r Hr) as (i & E & _). eauto.
Qed.

Section Lists.
  Context (x : Ext) (shape : str -> str) (ngrams : list str -> nat -> list str) (mx : Math) (L : Loader)
          (fo fo' : path -> orders) (uo uo' : path -> nat -> HashOrder) (f : fs).
  Hypothesis Sets : filters_are_sets L.
  Context (p : path) (m : EngineModel) (en en' : Engine) (input : str).
  Hypothesis Hen : from_path x shape ngrams mx L fo uo f p = Ok en.
  Hypothesis T : twins x mx L fo uo uo' f p m en en'.
  Hypothesis X : externals_ok x L (en_resources en) input.
  Hypothesis Z : sizes_ok x L fo f p m (en_resources en) input.
  Hypothesis A : hardly_ambiguous x L fo f p m (en_resources en) input None.

  Lemma twin_intents name ip ip' : In name (em_parsers m) -> twin x mx L fo uo uo' f (en_resources en) (pjoin p name) ip ip' ->
    both same_list (ip_get_intents ip input) (ip_get_intents ip' input).
  Proof.
    intros I W. pose proof X as (_ & Xb & Xc & _). pose proof (loaded_sets x shape ngrams mx L fo uo f Sets p en Hen) as Ig.
    destruct W as [dm dp dp' U N S|lm lp lp' U N S|c fillers].
    - cbn [ip_get_intents det_intent_parser]. unfold det_get_intents, det_parse_top.
      assert (M : both (@Permutation _) (det_matches x (uo (pjoin p name) 3) dp input None) (det_matches x (uo' (pjoin p name) 3) dp' input None)).
      { apply det_matches_same; auto; try (rewrite (patterns_res x L uo p en name dm dp N); assumption).
        - eapply patterns_short; eauto.
        - exact Logic.I. }
      pose proof (A name _ I U) as Q.
      destruct (det_matches x (uo (pjoin p name) 3) dp input None) as [ms| |] eqn:E;
        destruct (det_matches x (uo' (pjoin p name) 3) dp' input None) as [ms'| |]; cbn [both bind] in *; try contradiction; try exact Logic.I.
      assert (CL : countable ms /\ length ms <= 2) by (eapply patterns_few; eauto). destruct CL as [C L2].
      pose proof S as (_ & S2 & _ & S4 & _ & S6 & _).
      apply listed_same; auto; try (unfold hkeys; rewrite map_length; reflexivity).
      + apply (same_map_keys _ _ _ S2).
      + pose proof (det_matches_names _ _ _ _ _ _ E) as Nm. eapply subseq_NoDup; [exact Nm|]. apply NoDup_map_Some.
        eapply subseq_NoDup; [|exact (proj1 S6)]. unfold hkeys. apply subseq_map. apply subseq_filter.
      + intros r Hr. apply det_matches_ok in E as (opts & F & ->). apply In_present_inv in Hr.
        apply (Forall2_In_r _ _ _ _ F) in Hr as ([i sc] & Hi & Em). simpl in Em.
        exists i. split; [eapply match_intent_name; eauto|eapply match_intent_known; eauto].
    - cbn [ip_get_intents lookup_intent_parser]. unfold lookup_get_intents, lookup_parse_top.
      assert (M : both (@Permutation _) (lookup_matches x (uo (pjoin p name) 3) lp input None) (lookup_matches x (uo' (pjoin p name) 3) lp' input None)).
      { apply lookup_matches_same; auto. exact Logic.I. }
      pose proof (A name _ I U) as Q.
      destruct (lookup_matches x (uo (pjoin p name) 3) lp input None) as [ms| |] eqn:E;
        destruct (lookup_matches x (uo' (pjoin p name) 3) lp' input None) as [ms'| |]; cbn [both bind] in *; try contradiction; try exact Logic.I.
      assert (CL : countable ms /\ length ms <= 2) by (eapply table_few; eauto). destruct CL as [C L2].
      pose proof S as (_ & _ & S3 & _). destruct (lookup_matches_spec _ _ _ _ _ _ E) as (rs & Hr & NDm & Sub & _).
      apply listed_same; auto.
      + rewrite S3. apply Permutation_refl.
      + intros r Hm. destruct (candidate_results_name _ _ _ _ _ _ Hr (Sub r Hm)) as (j & Nj & Hj & _). eauto.
    - apply both_refl. left. reflexivity.
  Qed.

  Lemma intents_same o o' : both (@Permutation _) (get_intents o en input) (get_intents o' en' input).
  Proof.
    unfold get_intents. eapply both_bind with (R := same_merge).
    - apply merge_same; [|split; [apply keyed_nil|split; [apply keyed_nil|reflexivity]]].
      pose proof T as (_ & _ & _ & _ & _ & names & En & F & Len).
      assert (Sub : forall k, In k names -> In k (em_parsers m)) by (rewrite En; auto).
      clear En. revert Len Sub F. generalize (en_parsers en) (en_parsers en'). intros ps ps'. revert names ps'.
      induction ps as [|ip ps IH]; intros names [|ip' ps'] Len Sub F; try discriminate; [constructor|].
      simpl in F. inversion F as [|name ? names' ? W F' E1 E2]; subst. constructor.
      + apply (twin_intents name); auto. apply Sub. left. reflexivity.
      + apply (IH names'); auto. intros k Hk. apply Sub. right. exact Hk.
    - intros a b _ _ S. apply sort_same, Permutation_map. eapply perm_trans; [apply Permutation_sym, reorder_perm|].
      eapply perm_trans; [exact (same_merge_perm _ _ S)|apply reorder_perm].
  Qed.
End Lists.
