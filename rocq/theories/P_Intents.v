(** Proofs for C87 and C88. *)
From Coq Require Import String List NArith ZArith Bool Arith Lia Reals Lra Permutation Sorted.
From Flocq Require Import IEEE754.BinarySingleNaN.
From Verif Require Import Base Sorting F32 M_Types M_Utils M_Engine M_Det M_Lookup M_Feat M_Prob M_Features M_Crf M_Filler M_Cache M_Res M_Fs M_Json M_Load
  S_Base S_Utils S_Engine S_Det S_Rank S_Rules S_Prob S_Load S_Match S_Made S_Seeds S_Narrow S_Intents
  P_Base P_F32 P_Utils P_Engine P_Det P_Rank P_Rules P_Logit P_Prob P_Match P_MatchDet P_Load P_Made P_Narrow.
Import ListNotations.
Local Open Scope nat_scope.

(** ** What is in the merged list comes from a parser *)
Lemma insert_In (P : IntentResult -> Prop) k r m : P r -> (forall j e, In (j, e) m -> P e) ->
  forall j e, In (j, e) (hinsert opt_str_eqb k r m) -> P e.
Proof.
  intros Pr. induction m as [|[k0 v0] m IH]; intros H j e I; cbn [hinsert] in I.
  - destruct I as [I|[]]. injection I as <- <-. exact Pr.
  - destruct (opt_str_eqb k k0).
    + destruct I as [I|I]; [injection I as <- <-; exact Pr|]. apply (H j). right. exact I.
    + destruct I as [I|I]; [injection I as <- <-; apply (H k0); left; reflexivity|].
      apply (IH (fun j e I => H j e (or_intror I)) j e I).
Qed.
Lemma merge_from (P : IntentResult -> Prop) input parsers : forall m m', keyed m -> (forall j e, In (j, e) m -> P e) ->
  (forall ip l r, In ip parsers -> ip_get_intents ip input = Ok l -> In r l -> P r) ->
  merge_intents input parsers m = Ok m' -> forall j e, In (j, e) m' -> P e.
Proof.
  induction parsers as [|ip ips IH]; intros m m' K H S E j e I; cbn [merge_intents] in E.
  - injection E as <-. exact (H j e I).
  - bind_inv E. refine (IH _ _ _ _ (fun ip' l r Hi => S ip' l r (or_intror Hi)) E j e I); clear E I.
    + destruct m; [apply keyed_merge_first|apply keyed_merge_fold, K].
    + pose proof (fun r => S ip a r (or_introl eq_refl) E0) as Sa. clear S IH E0.
      destruct m as [|e0 m0].
      * unfold merge_first, hcollect.
        assert (G : forall l m, (forall r, In r l -> P r) -> (forall j e, In (j, e) m -> P e) ->
          forall j e, In (j, e) (fold_left (fun m kv => hinsert opt_str_eqb (fst kv) (snd kv) m) (map (fun r => (ir_name r, r)) l) m) -> P e).
        { clear. induction l as [|r l IH]; intros m Hl Hm j e; cbn [map fold_left fst snd]; [apply Hm|].
          apply IH; [intros r' Hr; apply Hl; right; exact Hr|]. apply insert_In; [apply Hl; left; reflexivity|exact Hm]. }
        apply G; [exact Sa|]. intros j0 e0 [].
      * set (m := e0 :: m0) in *. clearbody m. clear e0 m0.
        assert (G : forall l m, keyed m -> (forall r, In r l -> P r) -> (forall j e, In (j, e) m -> P e) ->
          forall j e, In (j, e) (fold_left merge_one l m) -> P e).
        { clear. induction l as [|r l IH]; intros m K Hl Hm j e; cbn [fold_left]; [apply Hm|].
          apply IH; [apply keyed_merge_one, K|intros r' Hr; apply Hl; right; exact Hr|].
          rewrite merge_one_insert by exact K. destruct (flt _ _); [|exact Hm]. apply insert_In; [apply Hl; left; reflexivity|exact Hm]. }
        apply G; [exact K|exact Sa|exact H].
Qed.
Lemma get_intents_from (P : IntentResult -> Prop) o en input l :
  (forall ip k r, In ip (en_parsers en) -> ip_get_intents ip input = Ok k -> In r k -> P r) ->
  get_intents o en input = Ok l -> forall r, In r l -> P r.
Proof.
  unfold get_intents. intros H E r I. bind_inv E. apply sort_desc_ok in E as (Pe & _).
  apply (Permutation_in _ (Permutation_sym Pe)) in I. apply in_map_iff in I as ([j e] & <- & I). apply reorder_In in I. cbn [snd].
  refine (merge_from P input (en_parsers en) [] a keyed_nil _ H E0 j e I). intros j0 e0 [].
Qed.

(** ** What a parser gives stays in the merged list *)
Section Keep.
  Context (k : option str) (v : f32).
  Definition has (m : list (option str * IntentResult)) : Prop := exists e, hget opt_str_eqb k m = Some e /\ fle v (ir_score e) = true.
  Lemma has_one m r : keyed m -> has m -> has (merge_one m r).
  Proof.
    intros K (e & G & F). rewrite merge_one_insert by exact K. destruct (flt _ _) eqn:B; [|exists e; auto].
    destruct (opt_str_eqb k (ir_name r)) eqn:E.
    - apply opt_str_eqb_spec in E. rewrite <- E, G in B. exists r. rewrite <- E, hget_insert_eq by apply opt_str_eqb_spec. split; [reflexivity|].
      exact (fle_trans _ _ _ F (flt_fle _ _ B)).
    - apply (eqb_false _ opt_str_eqb_spec) in E. exists e. rewrite hget_insert_neq by (try apply opt_str_eqb_spec; auto). auto.
  Qed.
  Lemma has_fold l : forall m, keyed m -> has m -> has (fold_left merge_one l m).
  Proof. induction l as [|r l IH]; intros m K H; cbn [fold_left]; [exact H|]. apply IH; [apply keyed_merge_one, K|apply has_one; assumption]. Qed.
  Lemma has_merge input parsers : forall m m', keyed m -> has m -> merge_intents input parsers m = Ok m' -> has m'.
  Proof.
    induction parsers as [|ip ips IH]; intros m m' K H E; cbn [merge_intents] in E; [injection E as <-; exact H|].
    bind_inv E. destruct m as [|e0 m0]; [destruct H as (e & G & _); discriminate|].
    refine (IH _ _ _ _ E); [apply keyed_merge_fold, K|apply has_fold; assumption].
  Qed.
  Definition no_nan (m : list (option str * IntentResult)) : Prop := forall j e, In (j, e) m -> fis_nan (ir_score e) = false.
  Lemma gets_fold l r : flt f0 v = true -> In r l -> ir_name r = k -> ir_score r = v ->
    (forall e, In e l -> fis_nan (ir_score e) = false) -> forall m, keyed m -> no_nan m -> has (fold_left merge_one l m).
  Proof.
    intros Fp I Nr Sr. induction l as [|r0 l IH]; [destruct I|]; intros NN m K Nm. cbn [fold_left]. destruct I as [->|I].
    - apply has_fold; [apply keyed_merge_one, K|]. rewrite merge_one_insert by exact K.
      pose proof (NN r (or_introl eq_refl)) as Nv. rewrite Nr, Sr in *. destruct (hget opt_str_eqb k m) as [e|] eqn:G.
      + destruct (flt (ir_score e) v) eqn:B.
        * exists r. rewrite hget_insert_eq by apply opt_str_eqb_spec. rewrite Sr. split; [reflexivity|apply fle_refl; exact Nv].
        * exists e. split; [exact G|]. pose proof (Nm _ _ (hget_In _ opt_str_eqb_spec _ _ _ G)) as Ne.
          apply fle_flt_neg; assumption.
      + rewrite Fp. exists r. rewrite hget_insert_eq by apply opt_str_eqb_spec. rewrite Sr. split; [reflexivity|apply fle_refl; exact Nv].
    - apply (IH I); [intros e He; apply NN; right; exact He|apply keyed_merge_one, K|].
      clear Fp. rewrite merge_one_insert by exact K. match goal with |- no_nan (if ?b then _ else _) => destruct b end; [|exact Nm].
      refine (insert_In (fun e => fis_nan (ir_score e) = false) _ _ _ _ Nm). apply NN. left. reflexivity.
  Qed.
  Lemma gets_first l r : In r l -> (forall e, In e l -> ir_name e = k -> e = r) -> ir_name r = k -> ir_score r = v -> fis_nan v = false -> has (merge_first l).
  Proof.
    intros I U Nr Sr Nv. unfold merge_first, hcollect.
    assert (G : forall l m, (forall e, In e l -> ir_name e = k -> e = r) -> In r l \/ has m ->
      has (fold_left (fun m kv => hinsert opt_str_eqb (fst kv) (snd kv) m) (map (fun r => (ir_name r, r)) l) m)).
    { clear l I U. induction l as [|r0 l IH]; intros m U H; cbn [map fold_left fst snd]; [destruct H as [[]|H]; exact H|].
      apply IH; [intros e He; apply U; right; exact He|]. destruct (opt_str_eqb k (ir_name r0)) eqn:E.
      - apply opt_str_eqb_spec in E. right. assert (r0 = r) by (apply U; [left; reflexivity|symmetry; exact E]). subst r0.
        exists r. rewrite Nr, hget_insert_eq by apply opt_str_eqb_spec. rewrite Sr. split; [reflexivity|apply fle_refl; exact Nv].
      - apply (eqb_false _ opt_str_eqb_spec) in E. destruct H as [[->|H]|(e & G & F)]; [congruence|left; exact H|].
        right. exists e. rewrite hget_insert_neq by (try apply opt_str_eqb_spec; auto). auto. }
    apply G; auto.
  Qed.
  Lemma merge_gets input parsers ip l r : In ip parsers -> ip_get_intents ip input = Ok l -> In r l -> (forall e, In e l -> ir_name e = k -> e = r) ->
    ir_name r = k -> ir_score r = v -> flt f0 v = true ->
    (forall ip' l' e, In ip' parsers -> ip_get_intents ip' input = Ok l' -> In e l' -> fis_nan (ir_score e) = false) ->
    forall m m', keyed m -> no_nan m -> merge_intents input parsers m = Ok m' -> has m'.
  Proof.
    intros I Hl Hr U Nr Sr Fp. induction parsers as [|ip0 ips IH]; [destruct I|]. intros NN m m' K Nm E. cbn [merge_intents] in E. bind_inv E. destruct I as [->|I].
    - rewrite Hl in E0. injection E0 as <-. refine (has_merge _ _ _ _ _ _ E).
      + destruct m; [apply keyed_merge_first|apply keyed_merge_fold, K].
      + destruct m as [|e0 m0].
        * apply (gets_first l r); auto. rewrite <- Sr. exact (NN ip l r (or_introl eq_refl) Hl Hr).
        * apply (gets_fold l r); auto. intros e He. exact (NN ip l e (or_introl eq_refl) Hl He).
    - refine (IH I _ _ _ _ _ E).
      + intros ip' l' e Hi. apply NN. right. exact Hi.
      + destruct m; [apply keyed_merge_first|apply keyed_merge_fold, K].
      + assert (P : merge_intents input [ip0] m = Ok (match m with [] => merge_first a | _ :: _ => fold_left merge_one a m end))
          by (cbn [merge_intents]; rewrite E0; reflexivity).
        intros j e. refine (merge_from (fun e => fis_nan (ir_score e) = false) input [ip0] m _ K Nm _ P j e).
        intros ip' l' e' [<-|[]] Hl' He'. exact (NN ip0 l' e' (or_introl eq_refl) Hl' He').
  Qed.
End Keep.
Lemma get_intents_gets o en input out ip l i v : In ip (en_parsers en) -> ip_get_intents ip input = Ok l -> In (mkIR i v) l ->
  (forall e, In e l -> ir_name e = i -> e = mkIR i v) -> flt f0 v = true ->
  (forall ip' l' e, In ip' (en_parsers en) -> ip_get_intents ip' input = Ok l' -> In e l' -> fis_nan (ir_score e) = false) ->
  get_intents o en input = Ok out -> exists e, In e out /\ ir_name e = i /\ fle v (ir_score e) = true.
Proof.
  intros I Hl Hr U Fp NN H. unfold get_intents in H. bind_inv H. rename a into mm.
  assert (K : keyed mm) by (refine (merge_intents_keyed _ _ _ _ keyed_nil E)).
  destruct (merge_gets i v input (en_parsers en) ip l (mkIR i v) I Hl Hr U eq_refl eq_refl Fp NN [] mm keyed_nil (fun j e F => match F with end) E) as (e & G & Fe).
  apply (hget_In _ opt_str_eqb_spec) in G. apply sort_desc_ok in H as (Pe & _). exists e. split; [|split; [exact (proj2 K _ _ G)|exact Fe]].
  apply (Permutation_in _ Pe). apply in_map_iff. exists (i, e). split; [reflexivity|]. apply reorder_In. exact G.
Qed.

(** The first parser's intents are all in the list. *)
Lemma keys_one k m r : In k (hkeys m) -> In k (hkeys (merge_one m r)).
Proof.
  unfold merge_one. intros H. destruct (flt _ _); [|exact H].
  destruct (hget _ _ _); apply (hkeys_insert _ opt_str_eqb_spec); right; exact H.
Qed.
Lemma keys_merge k input parsers : forall m m', In k (hkeys m) -> merge_intents input parsers m = Ok m' -> In k (hkeys m').
Proof.
  induction parsers as [|ip ips IH]; intros m m' H E; cbn [merge_intents] in E; [injection E as <-; exact H|].
  bind_inv E. destruct m as [|e0 m0]; [destruct H|]. refine (IH _ _ _ E). clear E E0.
  generalize dependent (e0 :: m0). clear e0 m0. induction a as [|r a IHa]; intros m H; cbn [fold_left]; [exact H|]. apply IHa, keys_one, H.
Qed.
Lemma get_intents_first o en input out ip ips l r : en_parsers en = ip :: ips -> ip_get_intents ip input = Ok l -> In r l ->
  get_intents o en input = Ok out -> exists e, In e out /\ ir_name e = ir_name r.
Proof.
  intros Ep Hl Hr H. unfold get_intents in H. rewrite Ep in H. bind_inv H. rename a into mm.
  assert (K : keyed mm) by (refine (merge_intents_keyed _ _ _ _ keyed_nil E)).
  cbn [merge_intents] in E. rewrite Hl in E. cbn [bind] in E. apply (keys_merge (ir_name r)) in E.
  - unfold hkeys in E. apply in_map_iff in E as ([k e] & Ek & G). cbn [fst] in Ek. subst k. exists e. split; [|exact (proj2 K _ _ G)].
    apply sort_desc_ok in H as (Pe & _). apply (Permutation_in _ Pe). apply in_map_iff. exists (ir_name r, e). split; [reflexivity|]. apply reorder_In. exact G.
  - unfold merge_first, hcollect. apply (fold_insert_keys _ opt_str_eqb_spec). left. unfold hkeys. rewrite map_map. cbn [fst]. apply in_map_iff. exists r. auto.
Qed.

Lemma fle_unit (v : f32) : v = f0 \/ v = f1 -> in_unit v.
Proof. intros [-> | ->]; split; vm_compute; reflexivity. Qed.

Lemma unit_eq_1 v : in_unit v -> fle f1 v = true -> v = f1.
Proof.
  intros U F. destruct (unit_R_inv v U) as (Fin & _ & B). apply fle_R in F; [|reflexivity|exact Fin]. rewrite f1_R in F.
  pose proof (RIneq.Rle_antisym _ _ B F) as E. apply B2R_inj; [|reflexivity|rewrite f1_R; exact E].
  destruct v; try discriminate; [|reflexivity]. cbn in E. exfalso. lra.
Qed.
Lemma flt_fle_trans (u v w : f32) : flt u v = true -> fle v w = true -> flt u w = true.
Proof.
  intros A B. destruct (flt_not_nan _ _ A), (fle_not_nan _ _ B). apply flt_ext; auto.
  apply flt_ext in A; auto. apply fle_ext in B; auto. lra.
Qed.

(** ** The confidences of a classifier *)
Section Classifier.
  Context (mx : Math) (c : Classifier) (input : str).
  Hypothesis X : exp_ok mx.
  Hypothesis N : forall t lr fs j, cl_featurizer c = Some t -> cl_logreg c = Some lr -> t input = Ok fs -> j < lr_classes lr ->
    fis_nan (mx_cell mx (f1 :: fs) (lr_rows lr) j) = false.
  Lemma classifier_unit w l r : get_intents_with_whitelist mx c input w = Ok l -> In r l -> in_unit (ir_score r).
  Proof.
    unfold get_intents_with_whitelist. intros H I. destruct (length (cl_intents c) <=? 1).
    { injection H as <-. destruct I as [<-|[]]. apply fle_unit. right. reflexivity. }
    assert (U : sort_desc ir_score (map (fun i => mkIR i (match i with None => f1 | Some _ => f0 end)) (cl_intents c)) = Ok l -> in_unit (ir_score r)).
    { intros S. apply sort_desc_ok in S as (P & _). apply (Permutation_in _ (Permutation_sym P)) in I. apply in_map_iff in I as (i & <- & _).
      apply fle_unit. destruct i; auto. }
    destruct input as [|c0 s0] eqn:Ei; [exact (U H)|]. rewrite <- Ei in *. clear Ei.
    destruct (cl_featurizer c) as [t|] eqn:Et; [|exact (U H)]. destruct (cl_logreg c) as [lr|] eqn:Er; [|exact (U H)].
    clear U. bind_inv H. bind_inv H. apply sort_desc_ok in H as (P & _). apply (Permutation_in _ (Permutation_sym P)) in I.
    apply filter_In in I as [I _]. apply in_map_iff in I as ([i s] & <- & I). cbn [ir_score snd]. apply in_combine_r in I.
    exact (logreg_unit mx lr a a0 X (fun j Hj => N t lr a j eq_refl eq_refl E Hj) E0 s I).
  Qed.
End Classifier.
Lemma classifier_classes mx c input w l r : get_intents_with_whitelist mx c input w = Ok l -> In r l ->
  In (ir_name r) (cl_intents c) \/ (cl_intents c = [] /\ ir_name r = None).
Proof.
  unfold get_intents_with_whitelist. intros H I. destruct (length (cl_intents c) <=? 1).
  { injection H as <-. destruct I as [<-|[]]. cbn [ir_name]. destruct (cl_intents c); [right; auto|left; left; reflexivity]. }
  left.
  assert (U : sort_desc ir_score (map (fun i => mkIR i (match i with None => f1 | Some _ => f0 end)) (cl_intents c)) = Ok l -> In (ir_name r) (cl_intents c)).
  { intros S. apply sort_desc_ok in S as (P & _). apply (Permutation_in _ (Permutation_sym P)) in I. apply in_map_iff in I as (i & <- & I). exact I. }
  destruct input as [|c0 s0]; [exact (U H)|].
  destruct (cl_featurizer c) as [t|]; [|exact (U H)]. destruct (cl_logreg c) as [lr|]; [|exact (U H)].
  clear U. bind_inv H. bind_inv H. apply sort_desc_ok in H as (P & _). apply (Permutation_in _ (Permutation_sym P)) in I.
  apply filter_In in I as [I _]. apply in_map_iff in I as ([i s] & <- & I). cbn [ir_name fst]. apply in_combine_l in I. exact I.
Qed.

Section Engine.
  Context (x : Ext) (shape : str -> str) (ngrams : list str -> nat -> list str) (mx : Math) (L : Loader)
          (fo : path -> orders) (uo : path -> nat -> HashOrder) (f : fs) (p : path) (en : Engine) (m : EngineModel) (input : str).
  Hypothesis Hen : from_path x shape ngrams mx L fo uo f p = Ok en.
  Hypothesis Hm : file_says L fo f p $"nlu_engine.json" d_engine m.
  Notation made name ip := (parser_at x shape ngrams mx L fo uo f (en_resources en) (pjoin p name) ip).
  Notation knows := (understood x L (en_resources en) input).

  Lemma made_in ip : In ip (en_parsers en) -> exists name, In name (em_parsers m) /\ made name ip.
  Proof.
    intros I. pose proof (engine_made _ _ _ _ _ _ _ _ _ _ _ Hen Hm) as F. destruct (Forall2_In_r _ _ _ _ F I) as (name & N & P). eauto.
  Qed.

  (** *** The names *)
  Lemma parser_names name ip l r : made name ip -> ip_get_intents ip input = Ok l -> In r l -> parser_lists L fo f (pjoin p name) (ir_name r).
  Proof.
    intros P H I. destruct P as [(U & dm & dp & S & Nw & ->)|[(U & lm & lp & S & Nw & ->)|(U & es & c & fl & S & UC & C & F & ->)]].
    - left. exists (Patterns dm). split; [split; assumption|]. intros i Ei. cbn [lists_intent].
      cbn [ip_get_intents det_intent_parser] in H. unfold det_get_intents in H. bind_inv H. injection H as <-.
      assert (K : forall k, In k (hkeys (dp_regexes dp)) -> In k (map fst (dm_patterns dm))).
      { intros k Hk. destruct (det_fields _ _ _ _ _ _ _ _ _ Nw) as (_ & _ & _ & _ & (rx & Ec & Er) & _).
        rewrite <- (compile_keys _ _ _ Ec). unfold hkeys in Hk. rewrite Er in Hk. apply in_map_iff in Hk as (e & <- & He). apply in_map.
        apply reorder_In in He. exact He. }
      unfold complete_intents in I. apply in_app_iff in I as [I|I].
      + unfold det_parse_top in E. bind_inv E.
        apply in_map_iff in I as (q & Eq & I). subst r. apply K.
        apply (rank_ok_In _ _ _ _ E) in I. apply in_map_iff in I as (q0 & <- & I0). change (ir_name (pr_intent q0) = Some i) in Ei. clear E.
        apply det_matches_ok in E0 as (opts & F & ->). apply In_present_inv in I0.
        destruct (Forall2_In_r _ _ _ _ F I0) as ([k sc] & Hk & Em). cbn [fst snd] in Em.
        assert (k = i) by (pose proof (match_intent_name _ _ _ _ _ _ _ Em); congruence). subst k.
        exact (match_intent_known _ _ _ _ _ _ _ Em).
      + apply in_app_iff in I as [I|[<-|[]]]; [|discriminate]. apply in_map_iff in I as (k & <- & I). injection Ei as <-.
        apply filter_In in I as [I _]. exact (K _ I).
    - left. exists (Table lm). split; [split; assumption|]. intros i Ei. cbn [lists_intent].
      destruct (lookup_fields _ _ _ _ _ Nw) as (_ & _ & In_ & _). rewrite <- In_. clear In_.
      cbn [ip_get_intents lookup_intent_parser] in H. unfold lookup_get_intents in H. bind_inv H. injection H as <-.
      unfold complete_intents in I. apply in_app_iff in I as [I|I].
      + unfold lookup_parse_top in E. bind_inv E.
        apply in_map_iff in I as (q & Eq & I). subst r.
        apply (rank_ok_In _ _ _ _ E) in I. apply in_map_iff in I as (q0 & <- & I0). change (ir_name (pr_intent q0) = Some i) in Ei. clear E.
        destruct (lookup_matches_spec _ _ _ _ _ _ E0) as (rs & Hr & _ & Sub & _).
        destruct (candidate_results_name _ _ _ _ _ _ Hr (Sub _ I0)) as (j & Nj & Hj & _). rewrite Nj in Ei. injection Ei as ->. exact Hj.
      + apply in_app_iff in I as [I|[<-|[]]]; [|discriminate]. apply in_map_iff in I as (k & <- & I). injection Ei as <-.
        apply filter_In in I as [I _]. exact I.
    - right. cbn [ip_get_intents prob_intent_parser] in H. unfold prob_get_intents, prob_new in H.
      cbn [pp_classifier ic_get_intents logreg_classifier] in H.
      destruct C as (cm & Sc & Ci & _). exists cm. split; [split; assumption|]. rewrite <- Ci.
      exact (classifier_classes mx c input None l r H I).
  Qed.

  Lemma intents_listed o l r : get_intents o en input = Ok l -> In r l ->
    exists name, In name (em_parsers m) /\ parser_lists L fo f (pjoin p name) (ir_name r).
  Proof.
    intros H. revert r. refine (get_intents_from _ o en input l _ H).
    intros ip k r Hi Hk Hr. destruct (made_in _ Hi) as (name & N & P). exists name. split; [exact N|]. exact (parser_names _ _ _ _ P Hk Hr).
  Qed.

  (** *** The confidences *)
  Hypothesis X : externals_ok x L (en_resources en) input.
  Hypothesis Z : sizes_ok x L fo f p m (en_resources en) input.

  (** What a rule based parser knows of the text. *)
  Definition matches_of (r : rules) (filter : option (list str)) (ms : list InternalParsingResult) : Prop :=
    countable ms /\ NoDup (map (fun q => ir_name (pr_intent q)) ms) /\
    (forall q, In q ms -> exists i, ir_name (pr_intent q) = Some i /\ knows filter r i (pr_slots q)) /\
    (forall i s, knows filter r i s -> exists q, In q ms /\ ir_name (pr_intent q) = Some i).

  Lemma ranked_all n ms tops : countable ms -> length ms <= n -> rank_results n ms = Ok tops -> Permutation (map (scored ms) ms) tops.
  Proof.
    intros C Ln H. destruct (rank_ok n ms C) as (sorted & H' & Pe & _). rewrite H in H'. injection H' as ->.
    rewrite firstn_all2; [exact Pe|]. rewrite <- (Permutation_length Pe), map_length. exact Ln.
  Qed.
  Lemma few_matches (ms : list InternalParsingResult) (names : list str) : NoDup (map (fun q => ir_name (pr_intent q)) ms) ->
    (forall q, In q ms -> exists i, ir_name (pr_intent q) = Some i /\ In i names) -> length ms <= length names.
  Proof.
    intros ND Hn. rewrite <- (map_length (fun q => ir_name (pr_intent q)) ms), <- (map_length (@Some str) names).
    apply NoDup_incl_length; [exact ND|]. intros n Hq. apply in_map_iff in Hq as (q & <- & Hq).
    destruct (Hn q Hq) as (i & -> & Hi). apply in_map. exact Hi.
  Qed.

  Lemma rules_list name ip r l : In name (em_parsers m) -> made name ip -> rules_at L fo f (pjoin p name) r -> ip_get_intents ip input = Ok l ->
    exists names ms tops, (forall i, In i names <-> lists_intent r i) /\ matches_of r None ms /\
      Permutation (map (scored ms) ms) tops /\ l = complete_intents names (map pr_intent tops).
  Proof.
    intros I P R H. pose proof (Z _ _ I R) as Fit. destruct X as (T & B & C & G). destruct r as [dm|lm]; destruct R as [U S].
    - destruct P as [(U' & dm' & dp & S' & Nw & ->)|[(U' & _)|(U' & _)]]; try discriminate (unit_fun _ _ _ _ _ _ U U').
      rewrite <- (says_fun _ _ _ _ _ _ _ _ S S') in Nw. clear dm' S'. cbn [ip_get_intents det_intent_parser] in H.
      assert (K : det_keys_once dm) by (destruct S as (j & _ & D); exact (det_once _ _ _ D)).
      unfold det_get_intents, det_parse_top in H. bind_inv H. injection H as <-. bind_inv E. rename a into tops, a0 into ms.
      assert (PM : pattern_matches x (ld_regex L) (dp_lang dp) dm (en_resources en) input None ms) by (eapply det_matches_exact; eauto).
      assert (Cn : countable ms) by (eapply det_countable; [exact G|exact PM]).
      destruct (det_fields _ _ _ _ _ _ _ _ _ Nw) as (Ln & _ & _ & _ & (rx & Ec & Er) & _).
      exists (hkeys (dp_regexes dp)), ms, tops. split; [|split; [|split; [|reflexivity]]].
      + intros i. cbn [lists_intent]. rewrite <- (compile_keys _ _ _ Ec). unfold hkeys. rewrite Er.
        split; intros Hi; apply in_map_iff in Hi as (e & <- & He); apply in_map; apply reorder_In in He || apply reorder_In; exact He.
      + destruct PM as [N0 PM]. split; [exact Cn|]. split; [exact N0|]. split.
        * intros q Hq. apply PM in Hq as (i & s & -> & Rq). exists i. split; [reflexivity|]. exists (dp_lang dp). split; [exact Ln|exact Rq].
        * intros i s (l0 & El & Rq). rewrite Ln in El. injection El as <-. eexists. split; [apply PM; exists i, s; split; [reflexivity|exact Rq]|reflexivity].
      + refine (ranked_all _ _ _ Cn _ E). replace (length (dp_regexes dp)) with (length (hkeys (dp_regexes dp))) by (unfold hkeys; apply map_length).
        apply few_matches; [exact (proj1 PM)|]. intros q Hq. apply det_matches_ok in E0 as (opts & F & ->). apply In_present_inv in Hq.
        destruct (Forall2_In_r _ _ _ _ F Hq) as ([k sc] & Hk & Em). cbn [fst snd] in Em.
        exists k. split; [exact (match_intent_name _ _ _ _ _ _ _ Em)|exact (match_intent_known _ _ _ _ _ _ _ Em)].
    - destruct P as [(U' & _)|[(U' & lm' & lp & S' & Nw & ->)|(U' & _)]]; try discriminate (unit_fun _ _ _ _ _ _ U U').
      rewrite <- (says_fun _ _ _ _ _ _ _ _ S S') in Nw. clear lm' S'. cbn [ip_get_intents lookup_intent_parser] in H.
      assert (K : NoDup (map fst (lm_stop_whitelist lm))) by (destruct S as (j & _ & D); exact (lookup_once _ _ _ D)).
      unfold lookup_get_intents, lookup_parse_top in H. bind_inv H. injection H as <-. bind_inv E. rename a into tops, a0 into ms.
      assert (RM : recognised_matches x (lp_lang lp) lm (en_resources en) input None ms) by (eapply matches_exact; eauto).
      assert (Cn : countable ms) by (eapply matches_countable; eauto).
      destruct (lookup_fields _ _ _ _ _ Nw) as (Ln & _ & In_ & _).
      exists (lp_intents_names lp), ms, tops. split; [|split; [|split; [|reflexivity]]].
      + intros i. rewrite In_. reflexivity.
      + destruct RM as (N0 & R1 & R2). split; [exact Cn|]. split; [exact N0|]. split.
        * intros q Hq. destruct (R1 q Hq) as (i & Ei & Rq & _). exists i. split; [exact Ei|]. exists (lp_lang lp). split; [exact Ln|exact Rq].
        * intros i s (l0 & El & Rq). rewrite Ln in El. injection El as <-. exact (R2 i s Rq).
      + refine (ranked_all _ _ _ Cn _ E). apply few_matches; [exact (proj1 RM)|]. intros q Hq.
        destruct (lookup_matches_spec _ _ _ _ _ _ E0) as (rs & Hr & _ & Sub & _).
        destruct (candidate_results_name _ _ _ _ _ _ Hr (Sub _ Hq)) as (j & Nj & Hj & _). eauto.
  Qed.

  Lemma share_unit ms q : countable ms -> In q ms -> flt f0 (share ms q) = true /\ in_unit (share ms q).
  Proof.
    intros C I. destruct (share_R ms C q I) as (F & _ & B1 & B2). repeat split.
    - apply flt_R; [reflexivity|exact F|]. rewrite f0_R. exact B1.
    - apply fle_R; [reflexivity|exact F|]. rewrite f0_R. apply RIneq.Rlt_le, B1.
    - apply fle_R; [exact F|reflexivity|]. rewrite f1_R. exact B2.
  Qed.
  Lemma rules_entry name ip r l e : In name (em_parsers m) -> made name ip -> rules_at L fo f (pjoin p name) r ->
    ip_get_intents ip input = Ok l -> In e l -> in_unit (ir_score e) /\
    (flt f0 (ir_score e) = true -> exists i s, ir_name e = Some i /\ knows None r i s).
  Proof.
    intros I P R H He. destruct (rules_list _ _ _ _ I P R H) as (names & ms & tops & _ & (C & _ & M & _) & Pe & ->).
    unfold complete_intents in He. apply in_app_iff in He as [He|He].
    - apply in_map_iff in He as (q & <- & He). apply (Permutation_in _ (Permutation_sym Pe)) in He.
      apply in_map_iff in He as (q0 & <- & He). cbn [scored pr_intent ir_score ir_name].
      split; [apply share_unit; assumption|]. intros _. destruct (M q0 He) as (i & Ei & Hi). eauto.
    - assert (E0 : ir_score e = f0).
      { apply in_app_iff in He as [He|[<-|[]]]; [|reflexivity]. apply in_map_iff in He as (k & <- & _). reflexivity. }
      rewrite E0. split; [apply fle_unit; left; reflexivity|]. intros F. vm_compute in F. discriminate.
  Qed.
  (** The entry of an intent that the rules know. *)
  Lemma rules_known name ip r l i s : In name (em_parsers m) -> made name ip -> rules_at L fo f (pjoin p name) r ->
    ip_get_intents ip input = Ok l -> knows None r i s ->
    exists v, In (mkIR (Some i) v) l /\ (forall e, In e l -> ir_name e = Some i -> e = mkIR (Some i) v) /\ flt f0 v = true /\
      ((forall j s', knows None r j s' -> j = i) -> v = f1).
  Proof.
    intros I P R H Hk. destruct (rules_list _ _ _ _ I P R H) as (names & ms & tops & _ & (C & ND & M & M') & Pe & ->).
    destruct (M' _ _ Hk) as (q & Hq & Eq). exists (share ms q).
    assert (HI : In (mkIR (Some i) (share ms q)) (map pr_intent tops)).
    { replace (mkIR (Some i) (share ms q)) with (pr_intent (scored ms q)) by (unfold scored; cbn [pr_intent]; rewrite Eq; reflexivity).
      apply in_map. apply (Permutation_in _ Pe). apply in_map. exact Hq. }
    split; [|split; [|split]].
    - unfold complete_intents. apply in_app_iff. left. exact HI.
    - intros e He Ee. unfold complete_intents in He. apply in_app_iff in He as [He|He].
      + apply in_map_iff in He as (t & <- & He). apply (Permutation_in _ (Permutation_sym Pe)) in He.
        apply in_map_iff in He as (q0 & <- & He). cbn [scored pr_intent ir_score ir_name] in *.
        assert (q0 = q) by (refine (NoDup_map_inj _ _ ND q0 q He Hq _); cbn; congruence). subst q0. rewrite Eq. reflexivity.
      + apply in_app_iff in He as [He|[<-|[]]]; [|discriminate]. apply in_map_iff in He as (k & <- & He). cbn in Ee. injection Ee as ->.
        apply filter_In in He as [_ He]. apply negb_true_iff, smem_false in He. exfalso. apply He.
        clear -HI. induction (map pr_intent tops) as [|t ts IH]; [destruct HI|]. cbn [filter_map]. destruct HI as [->|HI]; [left; reflexivity|].
        destruct (ir_name t); [right|]; exact (IH HI).
    - apply share_unit; assumption.
    - intros U. assert (E1 : ms = [q]).
      { assert (A : forall q', In q' ms -> q' = q).
        { intros q' Hq'. destruct (M q' Hq') as (j & Ej & Kj). rewrite (U _ _ Kj) in Ej. refine (NoDup_map_inj _ _ ND q' q Hq' Hq _). cbn. congruence. }
        apply NoDup_map_inv in ND. clear -A ND Hq. destruct ms as [|a [|b ms]]; [destruct Hq|f_equal; apply A; left; reflexivity|].
        exfalso. inversion ND as [|? ? Na _]; subst. apply Na. left. rewrite (A a), (A b); [reflexivity|right; left; reflexivity|left; reflexivity]. }
      subst ms. apply share_single. exact C.
  Qed.

  (** *** Classifiers *)
  Hypothesis EX : exp_ok mx.
  Hypothesis SN : scores_are_numbers x ngrams mx L fo uo f p m (en_resources en) input.

  Lemma parser_entry name ip l e : In name (em_parsers m) -> made name ip -> ip_get_intents ip input = Ok l -> In e l ->
    in_unit (ir_score e) /\
    (flt f0 (ir_score e) = true ->
       (exists r i s, rules_at L fo f (pjoin p name) r /\ ir_name e = Some i /\ knows None r i s) \/
       (exists cm, classifier_says L fo f (pjoin p name) cm /\ (In (ir_name e) (clm_intents cm) \/ (clm_intents cm = [] /\ ir_name e = None)))).
  Proof.
    intros I P H He. pose proof P as P0. destruct P as [(U & dm & dp & S & Nw & Ei)|[(U & lm & lp & S & Nw & Ei)|(U & es & c & fl & S & UC & C & F & Ei)]].
    - assert (R : rules_at L fo f (pjoin p name) (Patterns dm)) by (split; assumption).
      destruct (rules_entry _ _ _ _ _ I P0 R H He) as [A1 A2]. split; [exact A1|]. intros Fp. left. destruct (A2 Fp) as (i & s & A & B). exists (Patterns dm), i, s. auto.
    - assert (R : rules_at L fo f (pjoin p name) (Table lm)) by (split; assumption).
      destruct (rules_entry _ _ _ _ _ I P0 R H He) as [A1 A2]. split; [exact A1|]. intros Fp. left. destruct (A2 Fp) as (i & s & A & B). exists (Table lm), i, s. auto.
    - subst ip. cbn [ip_get_intents prob_intent_parser] in H. unfold prob_get_intents, prob_new in H.
      cbn [pp_classifier ic_get_intents logreg_classifier] in H. split.
      + refine (classifier_unit mx c input EX _ None l e H He). intros t lr ft j A1 A2 A3 A4. exact (SN name c t lr ft j I C A1 A2 A3 A4).
      + intros _. right. destruct C as (cm & Sc & Ci & _). exists cm. split; [split; assumption|]. rewrite <- Ci. exact (classifier_classes mx c input None l e H He).
  Qed.

  Lemma intents_unit o l e : get_intents o en input = Ok l -> In e l -> in_unit (ir_score e).
  Proof.
    intros H. revert e. refine (get_intents_from _ o en input l _ H).
    intros ip k e Hi Hk He. destruct (made_in _ Hi) as (name & N & P). exact (proj1 (parser_entry _ _ _ _ N P Hk He)).
  Qed.
  Lemma intents_positive o l e : get_intents o en input = Ok l -> In e l -> flt f0 (ir_score e) = true ->
    exists name, In name (em_parsers m) /\
      ((exists r i s, rules_at L fo f (pjoin p name) r /\ ir_name e = Some i /\ knows None r i s) \/
       (exists cm, classifier_says L fo f (pjoin p name) cm /\ (In (ir_name e) (clm_intents cm) \/ (clm_intents cm = [] /\ ir_name e = None)))).
  Proof.
    intros H. revert e. refine (get_intents_from _ o en input l _ H).
    intros ip k e Hi Hk He Fp. destruct (made_in _ Hi) as (name & N & P). exists name. split; [exact N|]. exact (proj2 (parser_entry _ _ _ _ N P Hk He) Fp).
  Qed.

  Lemma intents_known o l name r i s : get_intents o en input = Ok l -> In name (em_parsers m) -> rules_at L fo f (pjoin p name) r -> knows None r i s ->
    exists v, In (mkIR (Some i) v) l /\ flt f0 v = true /\ ((forall j s', knows None r j s' -> j = i) -> v = f1).
  Proof.
    intros H I R Hk. pose proof (engine_made _ _ _ _ _ _ _ _ _ _ _ Hen Hm) as F. destruct (Forall2_In_l _ _ _ _ F I) as (ip & Hi & P).
    assert (Hl : exists k, ip_get_intents ip input = Ok k).
    { unfold get_intents in H. bind_inv H. clear -E Hi. revert E. generalize (@nil (option str * IntentResult)). induction (en_parsers en) as [|q qs IH]; [destruct Hi|].
      intros m0 E. cbn [merge_intents] in E. bind_inv E. destruct Hi as [->|Hi]; [eauto|]. exact (IH Hi _ E). }
    destruct Hl as (k & Hl). destruct (rules_known _ _ _ _ _ _ I P R Hl Hk) as (v & A & U & Fp & One).
    assert (NN : forall ip' l' e, In ip' (en_parsers en) -> ip_get_intents ip' input = Ok l' -> In e l' -> fis_nan (ir_score e) = false).
    { intros ip' l' e Hi' Hl' He. destruct (made_in _ Hi') as (name' & N' & P'). apply unit_not_nan. exact (proj1 (parser_entry _ _ _ _ N' P' Hl' He)). }
    destruct (get_intents_gets o en input l ip k (Some i) v Hi Hl A U Fp NN H) as (e & He & Ne & Fe).
    exists (ir_score e). split; [destruct e as [ne ve]; cbn in *; subst ne; exact He|]. split.
    - apply flt_fle_trans with v; assumption.
    - intros O. rewrite (One O) in Fe. exact (unit_eq_1 _ (intents_unit _ _ _ H He) Fe).
  Qed.

  (** *** The first parser *)
  Lemma intents_first o l name rest r i : get_intents o en input = Ok l -> em_parsers m = name :: rest -> rules_at L fo f (pjoin p name) r ->
    i = None \/ (exists j, i = Some j /\ lists_intent r j) -> exists e, In e l /\ ir_name e = i.
  Proof.
    intros H Em R Hi. pose proof (engine_made _ _ _ _ _ _ _ _ _ _ _ Hen Hm) as F. rewrite Em in F. inversion F as [|? ip ? ips P F' E1 E2]; subst.
    assert (Hl : exists k, ip_get_intents ip input = Ok k).
    { unfold get_intents in H. bind_inv H. rewrite <- E2 in E. cbn [merge_intents] in E. bind_inv E. eauto. }
    destruct Hl as (k & Hl). assert (I : In name (em_parsers m)) by (rewrite Em; left; reflexivity).
    destruct (rules_list _ _ _ _ I P R Hl) as (names & ms & tops & Hn & _ & _ & ->).
    assert (A : exists e, In e (complete_intents names (map pr_intent tops)) /\ ir_name e = i).
    { destruct Hi as [->|(j & -> & Hj)].
      - exists (mkIR None f0). split; [|reflexivity]. unfold complete_intents. apply in_app_iff. right. apply in_app_iff. right. left. reflexivity.
      - apply Hn in Hj. clear -Hj. generalize (map pr_intent tops). intros t. unfold complete_intents.
        destruct (in_dec str_eq_dec j (filter_map ir_name t)) as [M|M].
        + assert (E : exists e, In e t /\ ir_name e = Some j).
          { clear Hj. induction t as [|e t IH]; [destruct M|]. cbn [filter_map] in M. destruct (ir_name e) as [n|] eqn:En.
            - destruct M as [->|M]; [exists e; split; [left; reflexivity|exact En]|]. destruct (IH M) as (e' & He & Ee). exists e'. split; [right; exact He|exact Ee].
            - destruct (IH M) as (e' & He & Ee). exists e'. split; [right; exact He|exact Ee]. }
          destruct E as (e & He & Ee). exists e. split; [|exact Ee]. apply in_app_iff. left. exact He.
        + exists (mkIR (Some j) f0). split; [|reflexivity]. apply in_app_iff. right. apply in_app_iff. left. apply in_map_iff. exists j.
          split; [reflexivity|]. apply filter_In. split; [exact Hj|]. apply negb_true_iff, smem_false. exact M. }
    destruct A as (e & He & Ee). destruct (get_intents_first o en input l ip ips _ e (eq_sym E2) Hl He H) as (e' & He' & Ee').
    exists e'. split; [exact He'|]. congruence.
  Qed.

  (** *** parse *)
  Lemma rules_parse name ip r wl a : In name (em_parsers m) -> made name ip -> rules_at L fo f (pjoin p name) r -> ip_parse ip input wl = Ok a ->
    a = no_intent \/ (ir_name (pr_intent a) <> None /\ flt fhalf (ir_score (pr_intent a)) = true /\ in_unit (ir_score (pr_intent a))).
  Proof.
    intros I P R H. pose proof (Z _ _ I R) as Fit. destruct X as (T & B & C & G).
    assert (A : exists ms, countable ms /\ (forall q, In q ms -> ir_name (pr_intent q) <> None) /\ rule_answer ms a).
    { destruct r as [dm|lm]; destruct R as [U S].
      - destruct P as [(U' & dm' & dp & S' & Nw & ->)|[(U' & _)|(U' & _)]]; try discriminate (unit_fun _ _ _ _ _ _ U U').
        rewrite <- (says_fun _ _ _ _ _ _ _ _ S S') in Nw. clear dm' S'. cbn [ip_parse det_intent_parser] in H.
        assert (K : det_keys_once dm) by (destruct S as (j & _ & D); exact (det_once _ _ _ D)).
        assert (Em : exists ms, det_matches x (uo (pjoin p name) 3) dp input wl = Ok ms).
        { unfold det_parse, det_parse_top in H. bind_inv H. bind_inv E. eauto. }
        destruct Em as (ms & Em).
        assert (PM : pattern_matches x (ld_regex L) (dp_lang dp) dm (en_resources en) input wl ms) by (eapply det_matches_exact; eauto).
        assert (Cn : countable ms) by (eapply det_countable; [exact G|exact PM]).
        exists ms. split; [exact Cn|]. split.
        + intros q Hq. apply PM in Hq as (i & s & -> & _). discriminate.
        + destruct (det_parse_rule _ _ _ _ _ _ Em Cn) as (a' & Ea & Ra). rewrite H in Ea. injection Ea as ->. exact Ra.
      - destruct P as [(U' & _)|[(U' & lm' & lp & S' & Nw & ->)|(U' & _)]]; try discriminate (unit_fun _ _ _ _ _ _ U U').
        rewrite <- (says_fun _ _ _ _ _ _ _ _ S S') in Nw. clear lm' S'. cbn [ip_parse lookup_intent_parser] in H.
        assert (K : NoDup (map fst (lm_stop_whitelist lm))) by (destruct S as (j & _ & D); exact (lookup_once _ _ _ D)).
        assert (Em : exists ms, lookup_matches x (uo (pjoin p name) 3) lp input wl = Ok ms).
        { unfold lookup_parse, lookup_parse_top in H. bind_inv H. bind_inv E. eauto. }
        destruct Em as (ms & Em).
        assert (RM : recognised_matches x (lp_lang lp) lm (en_resources en) input wl ms) by (eapply matches_exact; eauto).
        assert (Cn : countable ms) by (eapply matches_countable; eauto).
        exists ms. split; [exact Cn|]. split.
        + intros q Hq. destruct (proj1 (proj2 RM) q Hq) as (i & Ei & _). congruence.
        + destruct (lookup_parse_rule _ _ _ _ _ _ Em Cn) as (a' & Ea & Ra). rewrite H in Ea. injection Ea as ->. exact Ra. }
    destruct A as (ms & Cn & Nn & [[-> _]|(n & q & Hq & -> & Fh & _)]); [left; reflexivity|]. right. apply nth_error_In in Hq.
    split; [exact (Nn q Hq)|]. split; [exact Fh|]. exact (proj2 (share_unit _ _ Cn Hq)).
  Qed.
  Lemma parser_parse name ip wl a : In name (em_parsers m) -> made name ip -> ip_parse ip input wl = Ok a -> in_unit (ir_score (pr_intent a)).
  Proof.
    intros I P H. pose proof P as P0. destruct P as [(U & dm & dp & S & Nw & Ei)|[(U & lm & lp & S & Nw & Ei)|(U & es & c & fl & S & UC & C & F & Ei)]].
    - destruct (rules_parse _ _ (Patterns dm) _ _ I P0 (conj U S) H) as [->|(_ & _ & A)]; [apply fle_unit; right; reflexivity|exact A].
    - destruct (rules_parse _ _ (Table lm) _ _ I P0 (conj U S) H) as [->|(_ & _ & A)]; [apply fle_unit; right; reflexivity|exact A].
    - subst ip. cbn [ip_parse prob_intent_parser] in H. unfold prob_parse, prob_new in H. cbn [pp_classifier ic_get_intent logreg_classifier] in H.
      bind_inv H. bind_inv H. injection H as <-. cbn [pr_intent]. unfold cl_get_intent in E. bind_inv E. injection E as <-.
      destruct a as [|e es']; [apply fle_unit; right; reflexivity|].
      refine (classifier_unit mx c input EX _ wl _ e E1 (or_introl eq_refl)). intros t lr ft j A1 A2 A3 A4. exact (SN name c t lr ft j I C A1 A2 A3 A4).
  Qed.
  Lemma loop_unit wl n res : parse_loop x en input wl n f0 (en_parsers en) = Ok res -> in_unit (ir_score (ps_intent res)).
  Proof.
    intros H. apply parse_loop_ok in H as (_ & _ & [(pre & ip & post & a & Ep & _ & Ha & _ & -> & _)|(scores & F & -> & _)]).
    - assert (Hi : In ip (en_parsers en)) by (rewrite Ep; apply in_app_iff; right; left; reflexivity).
      destruct (made_in _ Hi) as (name & N & P). exact (parser_parse _ _ _ _ N P Ha).
    - cbn [ir_score]. destruct (rev scores) as [|sc rest] eqn:Er.
      + apply (f_equal (@rev f32)) in Er. rewrite rev_involutive in Er. subst scores. apply fle_unit. left. reflexivity.
      + apply (f_equal (@rev f32)) in Er. rewrite rev_involutive in Er. cbn [rev] in Er. subst scores. rewrite last_last.
        apply Forall2_app_inv_r in F as (l1 & l2 & _ & F2 & Ep). inversion F2 as [|ip ? ? ? A F3]; subst. clear F3 F2.
        assert (Hi : In ip (en_parsers en)) by (rewrite Ep; apply in_app_iff; right; left; reflexivity).
        destruct (made_in _ Hi) as (name & N & P). destruct A as (sl & Ha). exact (parser_parse _ _ _ _ N P Ha).
  Qed.
  Lemma parse_unit o1 o2 w b k n res : parse_with_alternatives x o1 o2 en input w b k n = Ok res ->
    in_unit (ir_score (ps_intent res)) /\ forall a, In a (ps_alternatives res) -> in_unit (ir_score (al_intent a)).
  Proof.
    intros H. split.
    - unfold parse_with_alternatives in H. bind_inv H. bind_inv H. pose proof (loop_unit _ _ _ E0) as A.
      destruct (k =? 0); [injection H as <-; exact A|]. bind_inv H. bind_inv H. injection H as <-. exact A.
    - intros a Ha. destruct (pwa_ok _ _ _ _ _ _ _ _ _ _ H) as (res0 & _ & Na & _ & _ & _ & Nz & Ze).
      destruct k as [|k]; [rewrite (Ze eq_refl), Na in Ha; destruct Ha|].
      destruct (Nz ltac:(discriminate)) as (out & adm & Ho & _ & Ad & Em & _).
      assert (B : In (al_intent a) adm).
      { apply (in_map al_intent) in Ha. rewrite Em in Ha. apply (subseq_In _ _ _ (subseq_firstn _ _)) in Ha. destruct adm; [destruct Ha|right; exact Ha]. }
      apply Ad in B as [B _]. exact (intents_unit _ _ _ Ho B).
  Qed.
  (** Rule based parsers alone. *)
  Lemma parse_rules o1 o2 w b k n res : em_parsers m <> [] -> (forall name, In name (em_parsers m) -> exists r, rules_at L fo f (pjoin p name) r) ->
    parse_with_alternatives x o1 o2 en input w b k n = Ok res ->
    match ir_name (ps_intent res) with
    | Some _ => flt fhalf (ir_score (ps_intent res)) = true /\ fle (ir_score (ps_intent res)) f1 = true
    | None => ir_score (ps_intent res) = f1
    end.
  Proof.
    intros Ne AllR H.
    assert (Lp : exists wl, exists res', parse_loop x en input wl n f0 (en_parsers en) = Ok res' /\ ps_intent res = ps_intent res').
    { unfold parse_with_alternatives in H. bind_inv H. bind_inv H. exists a, a0. split; [exact E0|].
      destruct (k =? 0); [injection H as <-; reflexivity|]. bind_inv H. bind_inv H. injection H as <-. reflexivity. }
    destruct Lp as (wl & res' & Lp & ->). clear H.
    apply parse_loop_ok in Lp as (_ & _ & [(pre & ip & post & a & Ep & _ & Ha & Na & -> & _)|(scores & F & -> & _)]).
    - assert (Hi : In ip (en_parsers en)) by (rewrite Ep; apply in_app_iff; right; left; reflexivity).
      destruct (made_in _ Hi) as (name & N & P). destruct (AllR _ N) as (r & R).
      destruct (rules_parse _ _ _ _ _ N P R Ha) as [->|(_ & A1 & A2)]; [exfalso; apply Na; reflexivity|].
      destruct (ir_name (pr_intent a)); [|exfalso; apply Na; reflexivity]. split; [exact A1|exact (proj2 A2)].
    - cbn [ir_score ir_name]. destruct (rev scores) as [|sc rest] eqn:Er.
      + apply (f_equal (@rev f32)) in Er. rewrite rev_involutive in Er. subst scores. exfalso. apply Ne.
        pose proof (engine_made _ _ _ _ _ _ _ _ _ _ _ Hen Hm) as Fm. inversion F as [Eps|]. rewrite <- Eps in Fm. inversion Fm. reflexivity.
      + apply (f_equal (@rev f32)) in Er. rewrite rev_involutive in Er. cbn [rev] in Er. subst scores. rewrite last_last.
        apply Forall2_app_inv_r in F as (l1 & l2 & _ & F2 & Ep). inversion F2 as [|ip ? ? ? A F3]; subst. clear F3 F2.
        assert (Hi : In ip (en_parsers en)) by (rewrite Ep; apply in_app_iff; right; left; reflexivity).
        destruct (made_in _ Hi) as (name & N & P). destruct A as (sl & Ha). destruct (AllR _ N) as (r & R).
        destruct (rules_parse _ _ _ _ _ N P R Ha) as [En|(A1 & _)]; [|exfalso; apply A1; reflexivity].
        injection En as <- _. reflexivity.
  Qed.
End Engine.

(** ** Scores that are not numbers *)
Lemma logit_nan mx v : exp_nan mx -> fis_nan v = true -> fis_nan (logit mx v) = true.
Proof.
  intros EN N. unfold logit. assert (A : fis_nan (mx_exp mx (fneg v)) = true) by (apply EN; destruct v; try discriminate; reflexivity).
  destruct (mx_exp mx (fneg v)); try discriminate. reflexivity.
Qed.
Lemma classifier_nan mx c input t lr ft j l : exp_nan mx -> scores_text c input -> cl_featurizer c = Some t -> cl_logreg c = Some lr ->
  t input = Ok ft -> lr_classes lr <> 1 -> j < lr_classes lr -> j < length (cl_intents c) ->
  fis_nan (mx_cell mx (f1 :: ft) (lr_rows lr) j) = true -> get_intents_with_whitelist mx c input None <> Ok l.
Proof.
  intros EN S Et El Ef N1 Hj Hk Na H. rewrite (scored_unfold _ _ _ _ t lr S Et El), Ef in H. cbn [bind] in H. bind_inv H. rename a into scores.
  destruct (logreg_scores _ _ _ _ E) as [H1 _]. destruct (H1 N1) as [Ln Sc]. specialize (Sc j Hj).
  assert (NN : fis_nan (logistic mx (mx_cell mx (f1 :: ft) (lr_rows lr) j)) = true) by (apply logit_nan; assumption).
  apply sort_desc_ok in H as (_ & F & _).
  assert (Fl : forall r : list IntentResult, filter (fun r => match ir_name r with Some i => true | None => true end) r = r).
  { induction r as [|[[n|] v] r IH]; cbn [filter ir_name]; f_equal; auto. }
  rewrite Fl in F. destruct (nth_error (cl_intents c) j) as [i|] eqn:Ei; [|apply nth_error_None in Ei; lia].
  rewrite map_length, combine_length, Ln in F. destruct S as (S1 & _). specialize (F ltac:(lia)). rewrite Forall_forall in F.
  specialize (F (mkIR i (logistic mx (mx_cell mx (f1 :: ft) (lr_rows lr) j)))). cbn [ir_score] in F.
  unfold fis_nan in NN. rewrite F in NN; [discriminate|]. apply in_map_iff. exists (i, logistic mx (mx_cell mx (f1 :: ft) (lr_rows lr) j)).
  split; [reflexivity|]. clear -Ei Sc. revert Ei Sc.
  generalize (logistic mx (mx_cell mx (f1 :: ft) (lr_rows lr) j)). intros v. revert scores j.
  induction (cl_intents c) as [|i0 is IH]; intros scores [|j] Ei Sc; try discriminate; destruct scores as [|s scores]; try discriminate; cbn [nth_error combine] in *.
  - injection Ei as ->. injection Sc as ->. left. reflexivity.
  - right. exact (IH _ _ Ei Sc).
Qed.
Lemma intents_nan x shape ngrams mx L fo uo f p en m input name c t lr ft j : exp_nan mx ->
  from_path x shape ngrams mx L fo uo f p = Ok en -> file_says L fo f p $"nlu_engine.json" d_engine m ->
  In name (em_parsers m) -> unit_at L fo f (pjoin p name) UProbabilistic ->
  classifier_at x ngrams L fo uo f (en_resources en) (pjoin (pjoin p name) $"intent_classifier") c ->
  scores_text c input -> cl_featurizer c = Some t -> cl_logreg c = Some lr -> t input = Ok ft ->
  lr_classes lr <> 1 -> j < lr_classes lr -> j < length (cl_intents c) -> fis_nan (mx_cell mx (f1 :: ft) (lr_rows lr) j) = true ->
  forall o l, get_intents o en input <> Ok l.
Proof.
  intros EN Hen Hm I U C S Et El Ef N1 Hj Hk Na o l H. pose proof (engine_made _ _ _ _ _ _ _ _ _ _ _ Hen Hm) as F. destruct (Forall2_In_l _ _ _ _ F I) as (ip & Hi & P).
  assert (Hl : exists k, ip_get_intents ip input = Ok k).
  { unfold get_intents in H. bind_inv H. clear -E Hi. revert E. generalize (@nil (option str * IntentResult)). induction (en_parsers en) as [|q qs IH]; [destruct Hi|].
    intros m0 E. cbn [merge_intents] in E. bind_inv E. destruct Hi as [->|Hi]; [eauto|]. exact (IH Hi _ E). }
  destruct Hl as (k & Hl). destruct P as [(U' & _)|[(U' & _)|(U' & es & c' & fl & _ & _ & C' & _ & ->)]]; try discriminate (unit_fun _ _ _ _ _ _ U U').
  apply classifier_iff in C, C'. rewrite C in C'. injection C' as <-. exact (classifier_nan mx c input t lr ft j k EN S Et El Ef N1 Hj Hk Na Hl).
Qed.
