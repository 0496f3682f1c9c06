(** Proofs for C89. *)
From Coq Require Import String List NArith ZArith Bool Arith Lia Reals Lra Permutation Sorted.
From Flocq Require Import IEEE754.BinarySingleNaN.
From Verif Require Import Base Sorting F32 M_Types M_Utils M_Engine M_Det M_Lookup M_Feat M_Prob M_Features M_Crf M_Filler M_Cache M_Res M_Fs M_Json M_Load
  S_Base S_Utils S_Engine S_Det S_Rank S_Rules S_Prob S_Load S_Match S_Made S_Seeds S_Narrow S_Intents S_Best
  P_Base P_F32 P_Utils P_Engine P_Det P_Rank P_Rules P_Logit P_Prob P_Match P_MatchDet P_Load P_Made P_Narrow P_Intents.
Import ListNotations.
Local Open Scope nat_scope.

(** ** Sorted lists *)
Lemma head_best o en input l e : get_intents o en input = Ok l -> In e l ->
  exists h rest, l = h :: rest /\ (h = e \/ fle (ir_score e) (ir_score h) = true).
Proof.
  unfold get_intents. intros H I. bind_inv H. apply sort_desc_ok in H as (_ & _ & S). destruct l as [|h rest]; [destruct I|].
  exists h, rest. split; [reflexivity|]. destruct I as [->|I]; [left; reflexivity|right].
  inversion S as [|? ? _ F]; subst. rewrite Forall_forall in F. exact (F e I).
Qed.

(** ** The best matches of a rule based parser *)
Lemma rank_first n ms tops1 tops q rest : rank_results 1 ms = Ok tops1 -> rank_results n ms = Ok tops -> 1 <= n -> tops1 = q :: rest ->
  exists rest', tops = q :: rest'.
Proof.
  unfold rank_results. intros H1 Hn Ln E. bind_inv H1. injection H1 as <-. rewrite E0 in Hn. cbn [bind] in Hn. injection Hn as <-.
  destruct a as [|q0 a]; [discriminate|]. cbn [firstn] in E. injection E as -> _. destruct n; [lia|]. cbn [firstn]. eauto.
Qed.
Lemma answer_first tops i : ir_name (pr_intent (answer_of tops)) = Some i -> exists rest, tops = answer_of tops :: rest.
Proof.
  unfold answer_of. destruct tops as [|q rest]; [discriminate|]. destruct (fle _ _); [discriminate|]. eauto.
Qed.

Lemma once_same (l : list IntentResult) : NoDup (map ir_name l) -> forall e e', In e l -> In e' l -> ir_name e = ir_name e' -> e = e'.
Proof. intros N e e' I I' E. exact (NoDup_map_inj _ _ N e e' I I' E). Qed.

Lemma classifier_once mx c input w l : NoDup (cl_intents c) -> get_intents_with_whitelist mx c input w = Ok l -> NoDup (map ir_name l).
Proof.
  intros N. unfold get_intents_with_whitelist. destruct (length (cl_intents c) <=? 1).
  { intros H. injection H as <-. cbn [map ir_name]. constructor; [intros []|constructor]. }
  assert (U : sort_desc ir_score (map (fun i => mkIR i (match i with None => f1 | Some _ => f0 end)) (cl_intents c)) = Ok l -> NoDup (map ir_name l)).
  { intros S. apply sort_desc_ok in S as (P & _). apply (Permutation_map ir_name) in P. apply (Permutation_NoDup P).
    rewrite map_map. cbn [ir_name]. rewrite map_id. exact N. }
  destruct input as [|c0 s0]; [exact U|].
  destruct (cl_featurizer c) as [t|]; [|exact U]. destruct (cl_logreg c) as [lr|]; [|exact U].
  clear U. intros H. bind_inv H. bind_inv H. apply sort_desc_ok in H as (P & _). apply (Permutation_map ir_name) in P. apply (Permutation_NoDup P).
  refine (subseq_NoDup _ _ (subseq_map _ _ _ (subseq_filter _ _)) _). rewrite map_map. cbn [ir_name].
  assert (S : subseq (map fst (combine (cl_intents c) a0)) (cl_intents c)).
  { clear. revert a0. induction (cl_intents c) as [|i l IH]; intros [|s ss]; cbn [combine map fst]; try constructor; try apply subseq_nil_l. apply IH. }
  exact (subseq_NoDup _ _ S N).
Qed.

Section Best.
  Context (x : Ext) (shape : str -> str) (ngrams : list str -> nat -> list str) (mx : Math) (L : Loader)
          (fo : path -> orders) (uo : path -> nat -> HashOrder) (f : fs) (p : path) (en : Engine) (m : EngineModel) (input : str).
  Hypothesis Hen : from_path x shape ngrams mx L fo uo f p = Ok en.
  Hypothesis Hm : file_says L fo f p $"nlu_engine.json" d_engine m.
  Notation made name ip := (parser_at x shape ngrams mx L fo uo f (en_resources en) (pjoin p name) ip).
  Notation knows := (understood x L (en_resources en) input).
  (** What a classifier answers is the first of its list. *)
  Lemma prob_answer_listed es c fl o a l : ip_parse (prob_intent_parser (prob_new o (logreg_classifier mx c) fl)) input None = Ok a ->
    ip_get_intents (prob_intent_parser (prob_new o (logreg_classifier mx c) fl)) input = Ok l -> ir_name (pr_intent a) = Some es ->
    exists rest, l = pr_intent a :: rest.
  Proof.
    cbn [ip_parse ip_get_intents prob_intent_parser]. unfold prob_parse, prob_get_intents, prob_new.
    cbn [pp_classifier ic_get_intent ic_get_intents logreg_classifier]. intros Ha Hl Na. bind_inv Ha. bind_inv Ha. injection Ha as <-. cbn [pr_intent] in *.
    unfold cl_get_intent in E. unfold cl_get_intents in Hl. rewrite Hl in E. cbn [bind] in E. injection E as <-. destruct l; [discriminate|]. eauto.
  Qed.

  Lemma prob_answer_sole name es c fl o a l i : classes_once L fo f p m -> In name (em_parsers m) -> unit_at L fo f (pjoin p name) UProbabilistic ->
    classifier_at x ngrams L fo uo f (en_resources en) (pjoin (pjoin p name) es) c -> es = $"intent_classifier" ->
    ip_parse (prob_intent_parser (prob_new o (logreg_classifier mx c) fl)) input None = Ok a ->
    ip_get_intents (prob_intent_parser (prob_new o (logreg_classifier mx c) fl)) input = Ok l -> ir_name (pr_intent a) = Some i ->
    In (pr_intent a) l /\ (forall e, In e l -> ir_name e = Some i -> e = pr_intent a).
  Proof.
    intros O I U C -> Ha Hl Na. destruct (prob_answer_listed _ _ _ _ _ _ Ha Hl Na) as (rest & El).
    assert (N : NoDup (map ir_name l)).
    { cbn [ip_get_intents prob_intent_parser] in Hl. unfold prob_get_intents, prob_new in Hl. cbn [pp_classifier ic_get_intents logreg_classifier] in Hl.
      refine (classifier_once mx c input None l _ Hl). destruct C as (cm & Sc & Ci & _). rewrite Ci. exact (O name cm I (conj U Sc)). }
    assert (Ia : In (pr_intent a) l) by (rewrite El; left; reflexivity). split; [exact Ia|].
    intros e He Ee. apply (once_same l N); auto. congruence.
  Qed.

  Hypothesis X : externals_ok x L (en_resources en) input.
  Hypothesis Z : sizes_ok x L fo f p m (en_resources en) input.

  (** What a rule based parser answers is in its list, and the rest of the list is at most one half. *)
  Lemma rules_answer_listed name ip r a l i : In name (em_parsers m) -> made name ip -> rules_at L fo f (pjoin p name) r ->
    ip_parse ip input None = Ok a -> ip_get_intents ip input = Ok l -> ir_name (pr_intent a) = Some i ->
    In (pr_intent a) l /\ flt fhalf (ir_score (pr_intent a)) = true /\
    (forall e, In e l -> ir_name e = Some i -> e = pr_intent a) /\
    (forall e, In e l -> ir_name e <> Some i -> fle (ir_score e) fhalf = true).
  Proof.
    intros I P R Ha Hl Na. 
    assert (K : exists s, knows None r i s).
    { destruct (rules_answer _ _ _ _ _ _ _ _ _ _ _ _ _ _ _ P R X (Z _ _ I R) Ha) as (A & _). eauto. }
    destruct K as (s & K). destruct (rules_known _ _ _ _ _ _ _ _ _ _ _ _ X Z _ _ _ _ _ _ I P R Hl K) as (v & Iv & U & _).
    destruct (rules_parse _ _ _ _ _ _ _ _ _ _ _ _ X Z _ _ _ _ _ I P R Ha) as [->|(_ & Fh & _)]; [discriminate|].
    assert (Main : In (pr_intent a) l /\ forall e, In e l -> ir_name e <> Some i -> fle (ir_score e) fhalf = true).
    { pose proof (Z _ _ I R) as Fit. destruct X as (T & B & C & G).
      assert (A : exists ms names tops1 tops, countable ms /\ NoDup (map (fun q => ir_name (pr_intent q)) ms) /\
                 rank_results 1 ms = Ok tops1 /\ (exists n, rank_results n ms = Ok tops /\ (ms <> [] -> 1 <= n)) /\
                 a = answer_of tops1 /\ l = complete_intents names (map pr_intent tops)).
      { destruct r as [dm|lm]; destruct R as [Un S].
        - destruct P as [(U' & dm' & dp & S' & Nw & ->)|[(U' & _)|(U' & _)]]; try discriminate (unit_fun _ _ _ _ _ _ Un U').
          rewrite <- (says_fun _ _ _ _ _ _ _ _ S S') in Nw. clear dm' S'. cbn [ip_parse ip_get_intents det_intent_parser] in *.
          assert (Ko : det_keys_once dm) by (destruct S as (j & _ & D); exact (det_once _ _ _ D)).
          unfold det_parse, det_get_intents, det_parse_top in *. bind_inv Ha. bind_inv E. bind_inv Hl. rewrite E0 in E1. cbn [bind] in E1.
          rename a1 into ms, a0 into tops1, a2 into tops. injection Ha as <-. injection Hl as <-.
          assert (PM : pattern_matches x (ld_regex L) (dp_lang dp) dm (en_resources en) input None ms) by (eapply det_matches_exact; eauto).
          exists ms, (hkeys (dp_regexes dp)), tops1, tops. split; [eapply det_countable; [exact G|exact PM]|]. split; [exact (proj1 PM)|].
          split; [exact E|]. split; [|split; reflexivity]. exists (length (dp_regexes dp)). split; [exact E1|]. intros Ne.
          destruct ms as [|q ms']; [contradiction|]. apply det_matches_ok in E0 as (opts & F & Eo).
          assert (Hq : In q (q :: ms')) by (left; reflexivity). rewrite Eo in Hq. apply In_present_inv in Hq.
          destruct (Forall2_In_r _ _ _ _ F Hq) as ([k sc] & _ & Em). cbn [fst snd] in Em. apply match_intent_known in Em.
          unfold hkeys in Em. destruct (dp_regexes dp); [destruct Em|]. cbn [length]. lia.
        - destruct P as [(U' & _)|[(U' & lm' & lp & S' & Nw & ->)|(U' & _)]]; try discriminate (unit_fun _ _ _ _ _ _ Un U').
          rewrite <- (says_fun _ _ _ _ _ _ _ _ S S') in Nw. clear lm' S'. cbn [ip_parse ip_get_intents lookup_intent_parser] in *.
          assert (Ko : NoDup (map fst (lm_stop_whitelist lm))) by (destruct S as (j & _ & D); exact (lookup_once _ _ _ D)).
          unfold lookup_parse, lookup_get_intents, lookup_parse_top in *. bind_inv Ha. bind_inv E. bind_inv Hl. rewrite E0 in E1. cbn [bind] in E1.
          rename a1 into ms, a0 into tops1, a2 into tops. injection Ha as <-. injection Hl as <-.
          assert (RM : recognised_matches x (lp_lang lp) lm (en_resources en) input None ms) by (eapply matches_exact; eauto).
          exists ms, (lp_intents_names lp), tops1, tops. split; [eapply matches_countable; eauto|]. split; [exact (proj1 RM)|].
          split; [exact E|]. split; [|split; reflexivity]. exists (length (lp_intents_names lp)). split; [exact E1|]. intros Ne.
          destruct ms as [|q ms']; [contradiction|].
          destruct (lookup_matches_spec _ _ _ _ _ _ E0) as (rs & Hr & _ & Sub & _).
          destruct (candidate_results_name _ _ _ _ _ _ Hr (Sub _ (or_introl eq_refl))) as (j & _ & Hj & _).
          destruct (lp_intents_names lp); [destruct Hj|]. cbn [length]. lia. }
      destruct A as (ms & names & tops1 & tops & Cn & ND & E1 & (n & En & Ln) & -> & ->).
      destruct (answer_first _ _ Na) as (rest & Et).
      assert (Ne : ms <> []). { intros ->. unfold rank_results in E1. cbn in E1. injection E1 as <-. discriminate. }
      destruct (rank_first _ _ _ _ _ _ E1 En (Ln Ne) Et) as (rest' & Et'). split.
      - unfold complete_intents. apply in_app_iff. left. rewrite Et'. left. reflexivity.
      - intros e He Nn. unfold complete_intents in He. apply in_app_iff in He as [He|He].
        + destruct (rank_rule ms Cn) as (t & Et1 & RA). rewrite E1 in Et1. injection Et1 as <-.
          destruct RA as [[Eq _]|(k & q & Hq & Eq & _ & Oth)]; [rewrite Eq in Na; discriminate|].
          apply in_map_iff in He as (t & <- & He). apply (rank_ok_In _ _ _ _ En) in He. apply in_map_iff in He as (q' & <- & He).
          cbn [scored pr_intent ir_score ir_name] in *. apply In_nth_error in He as (k' & Hk').
          apply (Oth k' q'); [|exact Hk']. intros ->. rewrite Hq in Hk'. injection Hk' as ->. apply Nn. rewrite <- Na, Eq. reflexivity.
        + assert (E0 : ir_score e = f0).
          { apply in_app_iff in He as [He|[<-|[]]]; [|reflexivity]. apply in_map_iff in He as (k & <- & _). reflexivity. }
          rewrite E0. vm_compute. reflexivity. }
    destruct Main as [M1 M2]. split; [exact M1|]. split; [exact Fh|]. split; [|exact M2].
    intros e He Ee. rewrite (U e He Ee). symmetry. exact (U _ M1 Na).
  Qed.

  Hypothesis O : classes_once L fo f p m.
  Lemma parser_answer_listed name ip a l i : In name (em_parsers m) -> made name ip ->
    ip_parse ip input None = Ok a -> ip_get_intents ip input = Ok l -> ir_name (pr_intent a) = Some i ->
    In (pr_intent a) l /\ (forall e, In e l -> ir_name e = Some i -> e = pr_intent a).
  Proof.
    intros I P Ha Hl Na. pose proof P as P0.
    destruct P as [(U & dm & dp & S & Nw & Ei)|[(U & lm & lp & S & Nw & Ei)|(U & es & c & fl & S & UC & C & F & Ei)]].
    - destruct (rules_answer_listed _ _ (Patterns dm) _ _ _ I P0 (conj U S) Ha Hl Na) as (A & _ & B & _). auto.
    - destruct (rules_answer_listed _ _ (Table lm) _ _ _ I P0 (conj U S) Ha Hl Na) as (A & _ & B & _). auto.
    - subst ip. exact (prob_answer_sole _ _ _ _ _ _ _ _ O I U C eq_refl Ha Hl Na).
  Qed.

  (** The parser that answers. *)
  Lemma parse_from o1 o2 k n res i : parse_with_alternatives x o1 o2 en input None None k n = Ok res -> ir_name (ps_intent res) = Some i ->
    exists ip name a, In ip (en_parsers en) /\ In name (em_parsers m) /\ made name ip /\ ip_parse ip input None = Ok a /\ ps_intent res = pr_intent a.
  Proof.
    intros H Ni. unfold parse_with_alternatives in H. bind_inv H. assert (a = None) by (unfold get_intents_whitelist in E; cbn in E; congruence). subst a.
    bind_inv H.
    assert (Er : ps_intent res = ps_intent a) by (destruct (k =? 0); [injection H as <-; reflexivity|]; bind_inv H; bind_inv H; injection H as <-; reflexivity).
    apply parse_loop_ok in E0 as (_ & _ & [(pre & ip & post & q & Ep & _ & Hq & _ & Ea & _)|(scores & _ & Ea & _)]).
    - assert (Hi : In ip (en_parsers en)) by (rewrite Ep; apply in_app_iff; right; left; reflexivity).
      destruct (made_in _ _ _ _ _ _ _ _ _ _ _ Hen Hm _ Hi) as (name & N & P). exists ip, name, q. repeat (split; [assumption|]). congruence.
    - rewrite Er, Ea in Ni. discriminate.
  Qed.
  Lemma merge_lists ip : In ip (en_parsers en) -> forall o l, get_intents o en input = Ok l -> exists k, ip_get_intents ip input = Ok k.
  Proof.
    intros Hi o l H. unfold get_intents in H. bind_inv H. clear -E Hi. revert E. generalize (@nil (option str * IntentResult)).
    induction (en_parsers en) as [|q qs IH]; [destruct Hi|].
    intros m0 E. cbn [merge_intents] in E. bind_inv E. destruct Hi as [->|Hi]; [eauto|]. exact (IH Hi _ E).
  Qed.

  (** *** One parser *)
  Lemma one_parser name : em_parsers m = [name] -> exists ip, en_parsers en = [ip] /\ made name ip.
  Proof.
    intros E. pose proof (engine_made _ _ _ _ _ _ _ _ _ _ _ Hen Hm) as F. rewrite E in F. inversion F as [|? ip ? ips P F' E1 E2]; subst.
    inversion F'; subst. exists ip. auto.
  Qed.
  Lemma one_answer name o l o1 o2 k n res i : em_parsers m = [name] -> get_intents o en input = Ok l ->
    parse_with_alternatives x o1 o2 en input None None k n = Ok res -> ir_name (ps_intent res) = Some i ->
    exists ip lp a, made name ip /\ ip_parse ip input None = Ok a /\ ip_get_intents ip input = Ok lp /\ ps_intent res = pr_intent a /\
      (forall e, In e l -> In e lp) /\ (forall e, In e lp -> exists e', In e' l /\ ir_name e' = ir_name e).
  Proof.
    intros Em Hl Hp Ni. destruct (one_parser _ Em) as (ip & Ep & P). destruct (parse_from _ _ _ _ _ _ Hp Ni) as (ip' & name' & a & Hi & _ & _ & Ha & Er).
    rewrite Ep in Hi. destruct Hi as [<-|[]]. assert (Hi : In ip (en_parsers en)) by (rewrite Ep; left; reflexivity).
    destruct (merge_lists ip Hi _ _ Hl) as (lp & Hlp). exists ip, lp, a. repeat (split; [assumption|]). split.
    - refine (get_intents_from (fun e => In e lp) o en input l _ Hl). intros ip0 k0 r0 I0 Hk Hr. rewrite Ep in I0. destruct I0 as [<-|[]].
      rewrite Hlp in Hk. injection Hk as <-. exact Hr.
    - intros e He. exact (get_intents_first o en input l ip [] lp e Ep Hlp He Hl).
  Qed.
  Lemma one_rules name r o l o1 o2 k n res i : em_parsers m = [name] -> rules_at L fo f (pjoin p name) r -> get_intents o en input = Ok l ->
    parse_with_alternatives x o1 o2 en input None None k n = Ok res -> ir_name (ps_intent res) = Some i ->
    exists rest, l = ps_intent res :: rest.
  Proof.
    intros Em R Hl Hp Ni. destruct (one_answer _ _ _ _ _ _ _ _ _ Em Hl Hp Ni) as (ip & lp & a & P & Ha & Hlp & Er & S1 & S2).
    assert (I : In name (em_parsers m)) by (rewrite Em; left; reflexivity). rewrite Er in Ni |- *.
    destruct (rules_answer_listed _ _ _ _ _ _ I P R Ha Hlp Ni) as (A & Fh & B & D).
    destruct (S2 _ A) as (e' & He' & Ee'). rewrite (B e' (S1 _ He') (eq_trans Ee' Ni)) in He'.
    destruct (head_best _ _ _ _ _ Hl He') as (h & rest & El & [->|F]); [eauto|].
    assert (Hh : In h lp) by (apply S1; rewrite El; left; reflexivity).
    assert (Nh : ir_name h = Some i).
    { destruct (ir_name h) as [j|] eqn:Eh.
      - destruct (str_eq_dec j i) as [->|Nj]; [reflexivity|]. exfalso. assert (Q : ir_name h <> Some i) by congruence.
        pose proof (flt_fle_trans _ _ _ (flt_fle_trans _ _ _ Fh F) (D h Hh Q)) as W. vm_compute in W. discriminate.
      - exfalso. assert (Q : ir_name h <> Some i) by congruence.
        pose proof (flt_fle_trans _ _ _ (flt_fle_trans _ _ _ Fh F) (D h Hh Q)) as W. vm_compute in W. discriminate. }
    exists rest. rewrite El. f_equal. exact (B h Hh Nh).
  Qed.
  Lemma one_classifier name o l o1 o2 k n res i : em_parsers m = [name] -> unit_at L fo f (pjoin p name) UProbabilistic -> get_intents o en input = Ok l ->
    parse_with_alternatives x o1 o2 en input None None k n = Ok res -> ir_name (ps_intent res) = Some i ->
    (forall e, In e l -> feq (ir_score e) (ir_score (ps_intent res)) = true -> ir_name e = Some i) ->
    exists rest, l = ps_intent res :: rest.
  Proof.
    intros Em U Hl Hp Ni Tie. destruct (one_answer _ _ _ _ _ _ _ _ _ Em Hl Hp Ni) as (ip & lp & a & P & Ha & Hlp & Er & S1 & S2).
    assert (I : In name (em_parsers m)) by (rewrite Em; left; reflexivity). rewrite Er in Ni, Tie |- *.
    destruct P as [(U' & _)|[(U' & _)|(U' & es & c & fl & S & UC & C & F & ->)]]; try discriminate (unit_fun _ _ _ _ _ _ U U').
    destruct (prob_answer_sole _ _ _ _ _ _ _ _ O I U C eq_refl Ha Hlp Ni) as (A & B).
    destruct (prob_answer_listed _ _ _ _ _ _ Ha Hlp Ni) as (rest0 & El0).
    destruct (S2 _ A) as (e' & He' & Ee'). rewrite (B e' (S1 _ He') (eq_trans Ee' Ni)) in He'.
    destruct (head_best _ _ _ _ _ Hl He') as (h & rest & El & [->|Fl]); [eauto|].
    assert (Hh : In h lp) by (apply S1; rewrite El; left; reflexivity).
    assert (Il : In h l) by (rewrite El; left; reflexivity).
    assert (Gl : h = pr_intent a \/ fle (ir_score h) (ir_score (pr_intent a)) = true).
    { cbn [ip_get_intents prob_intent_parser] in Hlp. unfold prob_get_intents, prob_new in Hlp. cbn [pp_classifier ic_get_intents logreg_classifier] in Hlp.
      rewrite El0 in Hh. destruct Hh as [<-|Hh]; [left; reflexivity|right].
      assert (SS : StronglySorted (fun a b => fle (ir_score b) (ir_score a) = true) lp).
      { clear -Hlp. unfold cl_get_intents, get_intents_with_whitelist in Hlp. destruct (length (cl_intents c) <=? 1).
        { injection Hlp as <-. constructor; constructor. }
        destruct input as [|c0 s0]; [exact (proj2 (proj2 (sort_desc_ok _ _ _ Hlp)))|].
        destruct (cl_featurizer c) as [t|]; [|exact (proj2 (proj2 (sort_desc_ok _ _ _ Hlp)))].
        destruct (cl_logreg c) as [lr|]; [|exact (proj2 (proj2 (sort_desc_ok _ _ _ Hlp)))].
        bind_inv Hlp. bind_inv Hlp. exact (proj2 (proj2 (sort_desc_ok _ _ _ Hlp))). }
      rewrite El0 in SS. inversion SS as [|? ? _ FF]; subst. rewrite Forall_forall in FF. exact (FF h Hh). }
    destruct Gl as [->|Gl]; [eauto|].
    assert (Q : feq (ir_score h) (ir_score (pr_intent a)) = true).
    { destruct (fle_not_nan _ _ Fl), (fle_not_nan _ _ Gl). apply fle_ext in Fl; auto. apply fle_ext in Gl; auto.
      unfold feq, Beqb, SpecFloat.SFeqb. pose proof (compare_ext (ir_score h) (ir_score (pr_intent a)) ltac:(auto) ltac:(auto)) as C0.
      unfold Bcompare in C0. rewrite C0. rewrite Raux.Rcompare_Eq by lra. reflexivity. }
    exists rest. rewrite El. f_equal. exact (B h Hh (Tie h Il Q)).
  Qed.

  (** *** Rules that do not know the text *)
  Lemma nothing_known o l : (forall name, In name (em_parsers m) -> exists r, rules_at L fo f (pjoin p name) r /\ forall i s, ~ knows None r i s) ->
    get_intents o en input = Ok l -> forall e, In e l -> ir_score e = f0.
  Proof.
    intros No H. refine (get_intents_from (fun e => ir_score e = f0) o en input l _ H). intros ip k e Hi Hk He.
    destruct (made_in _ _ _ _ _ _ _ _ _ _ _ Hen Hm _ Hi) as (name & N & P). destruct (No _ N) as (r & R & K).
    destruct (rules_list _ _ _ _ _ _ _ _ _ _ _ _ X Z _ _ _ _ N P R Hk) as (names & ms & tops & _ & (_ & _ & M & _) & Pe & ->).
    assert (Et : tops = []).
    { destruct ms as [|q ms]; [apply Permutation_nil in Pe; exact Pe|]. exfalso. destruct (M q (or_introl eq_refl)) as (i & _ & Q). exact (K _ _ Q). }
    subst tops. unfold complete_intents in He. cbn [map filter_map app] in He.
    apply in_app_iff in He as [He|[<-|[]]]; [|reflexivity]. apply in_map_iff in He as (j & <- & _). reflexivity.
  Qed.

  Lemma nothing_answered o1 o2 k n res : em_parsers m <> [] ->
    (forall name, In name (em_parsers m) -> exists r, rules_at L fo f (pjoin p name) r /\ forall i s, ~ knows None r i s) ->
    parse_with_alternatives x o1 o2 en input None None k n = Ok res -> ps_intent res = mkIR None f1.
  Proof.
    intros Ne No H. assert (R : forall name, In name (em_parsers m) -> exists r, rules_at L fo f (pjoin p name) r)
      by (intros name N; destruct (No name N) as (r & R & _); eauto).
    pose proof (parse_rules _ _ _ _ _ _ _ _ _ _ _ _ Hen Hm X Z _ _ _ _ _ _ _ Ne R H) as Q.
    destruct (ps_intent res) as [[i|] v] eqn:E; cbn [ir_name ir_score] in Q; [|congruence]. exfalso.
    assert (Ni : ir_name (ps_intent res) = Some i) by (rewrite E; reflexivity).
    destruct (parse_from _ _ _ _ _ _ H Ni) as (ip & name & a & _ & N & P & Ha & Er). destruct (No name N) as (r & Rr & K).
    destruct (rules_answer _ _ _ _ _ _ _ _ _ _ _ _ _ _ _ P Rr X (Z _ _ N Rr) Ha) as (A & _). rewrite Er in Ni. exact (K _ _ (A i Ni)).
  Qed.
  Lemma nothing_both o l o1 o2 k n res : em_parsers m <> [] ->
    (forall name, In name (em_parsers m) -> exists r, rules_at L fo f (pjoin p name) r /\ forall i s, ~ knows None r i s) ->
    get_intents o en input = Ok l -> parse_with_alternatives x o1 o2 en input None None k n = Ok res ->
    ps_intent res = mkIR None f1 /\ forall e, In e l -> ir_score e = f0.
  Proof. intros Ne No Hl H. split; [exact (nothing_answered _ _ _ _ _ Ne No H)|exact (nothing_known _ _ No Hl)]. Qed.

  (** *** Any engine *)
  Hypothesis EX : exp_ok mx.
  Hypothesis SN : scores_are_numbers x ngrams mx L fo uo f p m (en_resources en) input.
  Lemma answer_listed o l o1 o2 k n res i : get_intents o en input = Ok l -> parse_with_alternatives x o1 o2 en input None None k n = Ok res ->
    ir_name (ps_intent res) = Some i -> flt f0 (ir_score (ps_intent res)) = true ->
    exists e, In e l /\ ir_name e = Some i /\ fle (ir_score (ps_intent res)) (ir_score e) = true.
  Proof.
    intros Hl Hp Ni Fp. destruct (parse_from _ _ _ _ _ _ Hp Ni) as (ip & name & a & Hi & N & P & Ha & Er). rewrite Er in Ni, Fp |- *.
    destruct (merge_lists ip Hi _ _ Hl) as (lp & Hlp). destruct (parser_answer_listed _ _ _ _ _ N P Ha Hlp Ni) as (A & B).
    assert (Ea : pr_intent a = mkIR (Some i) (ir_score (pr_intent a))) by (destruct (pr_intent a); cbn in *; congruence).
    rewrite Ea in A.
    refine (get_intents_gets o en input l ip lp (Some i) (ir_score (pr_intent a)) Hi Hlp A _ Fp _ Hl).
    - intros e He Ee. rewrite <- Ea. exact (B e He Ee).
    - intros ip' l' e Hi' Hl' He. destruct (made_in _ _ _ _ _ _ _ _ _ _ _ Hen Hm _ Hi') as (name' & N' & P'). apply unit_not_nan.
      exact (proj1 (parser_entry _ _ _ _ _ _ _ _ _ _ _ _ X Z EX SN _ _ _ _ N' P' Hl' He)).
  Qed.
  Lemma certain_first o l o1 o2 k n res i : get_intents o en input = Ok l -> parse_with_alternatives x o1 o2 en input None None k n = Ok res ->
    ps_intent res = mkIR (Some i) f1 -> (forall e, In e l -> ir_score e = f1 -> ir_name e = Some i) ->
    exists rest, l = mkIR (Some i) f1 :: rest.
  Proof.
    intros Hl Hp Er Sole. destruct (answer_listed _ _ _ _ _ _ _ i Hl Hp) as (e & He & Ee & Fe); rewrite ?Er; try reflexivity.
    rewrite Er in Fe. cbn [ir_score] in Fe.
    assert (A : forall e', In e' l -> fle f1 (ir_score e') = true -> ir_score e' = f1)
      by (intros e' He' F; exact (unit_eq_1 _ (intents_unit _ _ _ _ _ _ _ _ _ _ _ _ Hen Hm X Z EX SN _ _ _ Hl He') F)).
    pose proof (A e He Fe) as Ve. destruct (head_best _ _ _ _ _ Hl He) as (h & rest & El & Q).
    assert (Vh : ir_score h = f1) by (destruct Q as [->|Q]; [exact Ve|apply A; [rewrite El; left; reflexivity|rewrite <- Ve; exact Q]]).
    exists rest. rewrite El. f_equal. destruct h as [nh vh]. cbn in *. subst vh. f_equal. apply (Sole (mkIR nh f1)); [rewrite El; left; reflexivity|reflexivity].
  Qed.
  Lemma certain_alternatives o1 o2 k n res i : parse_with_alternatives x o1 o2 en input None None k n = Ok res ->
    ps_intent res = mkIR (Some i) f1 -> (forall l e, get_intents o2 en input = Ok l -> In e l -> ir_score e = f1 -> ir_name e = Some i) ->
    forall a, In a (ps_alternatives res) -> ir_name (al_intent a) <> Some i.
  Proof.
    intros Hp Er Sole a Ha Na. destruct (pwa_ok _ _ _ _ _ _ _ _ _ _ Hp) as (res0 & _ & Nal & _ & _ & _ & Nz & Ze).
    destruct k as [|k]; [rewrite (Ze eq_refl), Nal in Ha; destruct Ha|].
    destruct (Nz ltac:(discriminate)) as (out & adm & Ho & Sub & Ad & Em & _).
    destruct (certain_first _ _ _ _ _ _ _ _ Ho Hp Er (fun e => Sole out e Ho)) as (rest & Eo).
    assert (ND : NoDup (map ir_name out)) by exact (proj1 (get_intents_once_best_first _ _ _ _ Ho)).
    apply (in_map al_intent) in Ha. rewrite Em in Ha. apply (subseq_In _ _ _ (subseq_firstn _ _)) in Ha.
    destruct adm as [|h adm]; [destruct Ha|]. cbn [tl] in Ha.
    assert (NA : NoDup (map ir_name (h :: adm))) by exact (subseq_NoDup _ _ (subseq_map _ _ _ Sub) ND).
    assert (Eh : h = mkIR (Some i) f1).
    { assert (Ii : In (mkIR (Some i) f1) (h :: adm)) by (apply Ad; split; [rewrite Eo; left; reflexivity|]; intros j _; left; split; reflexivity).
      rewrite Eo in Sub, ND. clear Eo Ho Ad. inversion Sub as [|? ? ? S'|? ? ? S']; subst; [reflexivity|].
      exfalso. cbn [map ir_name] in ND. inversion ND as [|? ? Nn _]; subst. apply Nn. apply (subseq_In _ _ _ S') in Ii.
      apply in_map_iff. exists (mkIR (Some i) f1). auto. }
    subst h. cbn [map ir_name] in NA. inversion NA as [|? ? Nn _]; subst. apply Nn. rewrite <- Na. apply in_map. exact Ha.
  Qed.
End Best.
