(** Proofs for C84 and C85. *)
From Coq Require Import String List NArith ZArith Bool Arith Lia Permutation Sorted.
From Flocq Require Import IEEE754.BinarySingleNaN.
From Verif Require Import Base Sorting F32 M_Types M_Utils M_Engine M_Det M_Lookup M_Feat M_Prob M_Features M_Crf M_Filler M_Cache M_Res M_Fs M_Json M_Load
  S_Base S_Utils S_Det S_Rank S_Rules S_Load S_Match S_Made S_Seeds S_Narrow
  P_Base P_F32 P_Utils P_Engine P_Det P_Rank P_Rules P_Match P_MatchDet P_Load P_Made.
Import ListNotations.

(** ** Sorting a part of a list *)
Section Sort.
  Context {A} (leb : A -> A -> bool) (P : A -> Prop).
  Hypothesis total : forall a b, P a -> P b -> leb a b = true \/ leb b a = true.
  Hypothesis trans : forall a b c, P a -> P b -> P c -> leb a b = true -> leb b c = true -> leb a c = true.

  Lemma insert_first a l : Forall (fun b => leb a b = true) l -> insert leb a l = a :: l.
  Proof. intros F. destruct F as [|b l H F]; [reflexivity|]. cbn [insert]. rewrite H. reflexivity. Qed.
  Lemma filter_insert p a l : P a -> Forall P l -> StronglySorted (fun a b => leb a b = true) l ->
    filter p (insert leb a l) = if p a then insert leb a (filter p l) else filter p l.
  Proof.
    intros Pa Pl S. induction S as [|b l S IH H]; cbn [insert filter]; [destruct (p a); reflexivity|].
    inversion Pl as [|b0 l0 Pb Pl']; subst. destruct (leb a b) eqn:E.
    - cbn [filter]. destruct (p a); [|reflexivity]. destruct (p b); cbn [insert]; [rewrite E; reflexivity|].
      rewrite insert_first; [reflexivity|]. apply Forall_forall. intros c Hc. apply filter_In in Hc as [Hc _].
      rewrite Forall_forall in H, Pl'. eapply trans; [exact Pa|exact Pb|auto|exact E|auto].
    - cbn [filter]. rewrite (IH Pl'). destruct (p b), (p a); cbn [insert]; try rewrite E; reflexivity.
  Qed.
  Lemma filter_isort p l : Forall P l -> filter p (isort leb l) = isort leb (filter p l).
  Proof.
    intros Pl. induction Pl as [|a l Pa Pl IH]; [reflexivity|]. cbn [isort filter].
    rewrite filter_insert; auto.
    - rewrite IH. destruct (p a); reflexivity.
    - apply Forall_forall. intros b Hb. rewrite isort_In in Hb. rewrite Forall_forall in Pl. auto.
    - apply isort_sorted with (P := P); auto.
  Qed.
End Sort.

(** ** Calls that succeed under a filter succeed under a narrower one *)
Lemma mapM_all {A B} (g : A -> outcome B) l : (forall a, In a l -> exists b, g a = Ok b) -> exists r, mapM g l = Ok r.
Proof.
  induction l as [|a l IH]; intros H; [exists []; reflexivity|]. cbn [mapM].
  destruct (H a (or_introl eq_refl)) as (b & ->). destruct IH as (r & ->); [intros; apply H; right; assumption|].
  exists (b :: r). reflexivity.
Qed.
Lemma mapM_each {A B} (g : A -> outcome B) l r a : mapM g l = Ok r -> In a l -> exists b, g a = Ok b /\ In b r.
Proof.
  intros E I. apply mapM_ok_Forall2 in E. induction E as [|c b l r H E IH]; [contradiction|].
  destruct I as [<-|I]; [exists b; split; [exact H|left; reflexivity]|]. destruct (IH I) as (d & H1 & H2). exists d. split; [exact H1|right; exact H2].
Qed.
Lemma same_ok {A} (a b : A) : Ok a = Ok b -> a = b.
Proof. congruence. Qed.
Lemma allowed_smem f i : allowed f i <-> match f with Some l => smem i l | None => true end = true.
Proof. destruct f as [l|]; cbn [allowed]; [rewrite smem_spec; tauto|tauto]. Qed.

Section Narrow.
  Context (x : Ext) (f' f : option (list str)) (N : narrower f' f).

  Lemma det_matches_narrow ord dp input ms : (forall i sc, In (i, sc) (dp_scopes dp) -> In i (hkeys (dp_slots dp))) ->
    det_matches x ord dp input f = Ok ms -> exists ms', det_matches x ord dp input f' = Ok ms'.
  Proof.
    intros K H. unfold det_matches in *. bind_inv H.
    destruct (mapM_all (fun e => match_intent x ord dp input (fst e) (snd e)) (considered dp f')) as (r & ->); [|eexists; reflexivity].
    intros e He. destruct (mapM_each _ _ _ e E) as (b & Hb & _); [|eauto].
    unfold considered in *. apply filter_In in He as [I1 I2]. apply filter_In. split; [exact I1|]. apply smem_spec. apply smem_spec in I2.
    destruct e as [i sc]. cbn [fst] in *. destruct f as [l|]; [|exact (K _ _ I1)]. apply (N i). destruct f'; [exact I2|exact I].
  Qed.

  Lemma lookup_matches_narrow ord lp input ms : lookup_matches x ord lp input f = Ok ms -> exists ms', lookup_matches x ord lp input f' = Ok ms'.
  Proof.
    intros H. unfold lookup_matches in *. bind_inv H. bind_inv H. unfold get_candidates in *. bind_inv E. injection E as <-.
    assert (G : forall g, allowed_group f' (gs_intents g) <> [] -> allowed_group f (gs_intents g) <> []).
    { intros g Hg. destruct (allowed_group f' (gs_intents g)) as [|i r] eqn:Eg; [congruence|]. clear Hg.
      assert (I : In i (allowed_group f' (gs_intents g))) by (rewrite Eg; left; reflexivity).
      unfold allowed_group in I. apply filter_In in I as [I1 I2]. apply allowed_smem in I2. apply N, allowed_smem in I2.
      intros E'. assert (J : In i (allowed_group f (gs_intents g))) by (apply filter_In; auto). rewrite E' in J. contradiction. }
    destruct (mapM_all (group_candidates x lp input f') (lp_scopes lp)) as (ls & Els).
    { intros g Hg. destruct (mapM_each _ _ _ g E1 Hg) as (b & Hb & _). unfold group_candidates in Hb |- *. specialize (G g).
      destruct (allowed_group f' (gs_intents g)) as [|i r]; [eauto|]. destruct (allowed_group f (gs_intents g)) as [|j s]; [exfalso; apply G; congruence|].
      bind_inv Hb. rewrite E. cbn [bind]. eauto. }
    rewrite Els. cbn [bind].
    destruct (mapM_all (lookup_candidate x lp input f') (unique candidate_eqb (concat ls))) as (r & ->); [|eexists; reflexivity].
    intros c Hc.
    assert (Ic : In c (concat a1)).
    { assert (Hc' : In c (concat ls)) by (apply (unique_In candidate_eqb candidate_eqb_spec), Hc). clear Hc.
      apply in_concat in Hc' as (l & Hl & Hc). apply mapM_ok_Forall2 in Els. destruct (Forall2_In_r _ _ _ _ Els Hl) as (g & Hg & Eg).
      destruct (mapM_each _ _ _ g E1 Hg) as (b & Hb & Ib). apply in_concat. exists b. split; [exact Ib|].
      unfold group_candidates in Eg, Hb. destruct (allowed_group f' (gs_intents g)) as [|i s] eqn:E'; [injection Eg as <-; contradiction|].
      assert (Sub : forall k, In k (i :: s) -> In k (allowed_group f (gs_intents g))).
      { intros k Hk. rewrite <- E' in Hk. apply filter_In in Hk as [K1 K2]. apply filter_In. split; [exact K1|]. apply allowed_smem, N, allowed_smem, K2. }
      destruct (allowed_group f (gs_intents g)) as [|j s0]; [destruct (Sub i (or_introl eq_refl))|].
      bind_inv Eg. apply same_ok in Eg. rewrite E in Hb. cbn [bind] in Hb. apply same_ok in Hb. rewrite <- Hb. rewrite <- Eg in Hc.
      apply in_flat_map in Hc as (es & He & Hc). apply in_flat_map. exists es. split; [exact He|].
      apply in_flat_map in Hc as (k & Hk & Hc). apply in_flat_map. exists k. split; [apply Sub, Hk|exact Hc]. }
    destruct (mapM_each _ _ _ c E0) as (b & Hb & _); [apply (unique_In candidate_eqb candidate_eqb_spec), Ic|].
    clear E1 E0 H G Els Hc Ic. unfold lookup_candidate in *. destruct (hget _ _ _) as [out|]; [|eauto]. unfold parse_map_output in *. bind_inv Hb. rewrite E. cbn [bind].
    destruct (match f' with Some l => smem a l | None => true end) eqn:A'; [|eauto].
    apply allowed_smem, N, allowed_smem in A'. rewrite A' in Hb. bind_inv Hb. rewrite E0. cbn [bind]. eauto.
  Qed.

  (** The classifier: the best class under [f] is the best one under [f'] if [f'] allows it. *)
  Definition fits (g : option (list str)) (r : IntentResult) : bool :=
    match ir_name r with Some i => match g with Some w => smem i w | None => true end | None => true end.
  Lemma fits_narrow r : fits f' r = true -> fits f r = true.
  Proof. unfold fits. destruct (ir_name r) as [i|]; [|auto]. intros H. apply allowed_smem, N, allowed_smem, H. Qed.
  Lemma filter_fits l : filter (fits f') l = filter (fits f') (filter (fits f) l).
  Proof.
    induction l as [|r l IH]; [reflexivity|]. cbn [filter]. destruct (fits f r) eqn:E; cbn [filter]; [rewrite IH; reflexivity|].
    destruct (fits f' r) eqn:E'; [rewrite (fits_narrow _ E') in E; discriminate|exact IH].
  Qed.
  Lemma sort_filter (p : IntentResult -> bool) l s : sort_desc ir_score l = Ok s -> sort_desc ir_score (filter p l) = Ok (filter p s).
  Proof.
    intros H. destruct (sort_desc_ok _ _ _ H) as (_ & NN & _). unfold sort_desc in H.
    destruct ((2 <=? length l) && existsb (fun a => fis_nan (ir_score a)) l); [discriminate|]. injection H as <-.
    destruct (le_lt_dec 2 (length l)) as [G|G].
    - specialize (NN G). rewrite sort_desc_no_nan.
      + f_equal. symmetry. apply filter_isort with (P := fun a => BinarySingleNaN.is_nan (ir_score a) = false); auto.
        * intros a b Ha Hb. apply fle_total; auto.
        * intros a b c _ _ _ H1 H2. eapply fle_trans; eauto.
      + apply Forall_forall. intros a Ha. apply filter_In in Ha as [Ha _]. rewrite Forall_forall in NN. auto.
    - destruct l as [|a [|b l]]; cbn in *; try lia; [reflexivity|]. destruct (p a); reflexivity.
  Qed.
  Lemma classifier_narrow mx c input r : cl_get_intent mx c input f = Ok r ->
    (forall i, ir_name r = Some i -> allowed f' i) -> cl_get_intent mx c input f' = Ok r.
  Proof.
    unfold cl_get_intent. intros H A. bind_inv H. injection H as <-. unfold get_intents_with_whitelist in *.
    destruct (length (cl_intents c) <=? 1); [injection E as <-; reflexivity|].
    assert (R : forall rs, sort_desc ir_score (map (fun i => mkIR i (match i with None => f1 | Some _ => f0 end)) (cl_intents c)) = Ok rs ->
      (let* rs := sort_desc ir_score (map (fun i => mkIR i (match i with None => f1 | Some _ => f0 end)) (cl_intents c)) in
       Ok (match rs with r :: _ => r | [] => mkIR None f1 end)) = Ok (match rs with r :: _ => r | [] => mkIR None f1 end)) by (intros rs ->; reflexivity).
    destruct input as [|ch input]; [apply R; exact E|]. destruct (cl_featurizer c) as [t|]; [|apply R; exact E].
    destruct (cl_logreg c) as [lr|]; [|apply R; exact E]. clear R. bind_inv E. bind_inv E. rewrite E0. cbn [bind]. rewrite E1. cbn [bind].
    set (all := map (fun is => mkIR (fst is) (snd is)) (combine (cl_intents c) a1)) in *.
    change (fun r => match ir_name r with Some i => match f with Some w => smem i w | None => true end | None => true end) with (fits f) in E.
    change (fun r => match ir_name r with Some i => match f' with Some w => smem i w | None => true end | None => true end) with (fits f').
    rewrite filter_fits. rewrite (sort_filter (fits f') _ _ E). cbn [bind]. f_equal.
    destruct a as [|r a]; [reflexivity|]. cbn [filter]. replace (fits f' r) with true; [reflexivity|]. symmetry. unfold fits.
    destruct (ir_name r) as [i|] eqn:Ei; [|reflexivity]. apply allowed_smem, A. reflexivity.
  Qed.

  Lemma understood_narrow L res input r i s : understood x L res input f' r i s -> understood x L res input f r i s.
  Proof.
    destruct r as [m|m]; intros (l & E & U); exists l; (split; [exact E|]).
    - destruct U as [A U]. split; [apply N, A|exact U].
    - destruct U as (A & g & j & Ig & Ij & Aj & U). split; [apply N, A|]. exists g, j. repeat split; auto.
  Qed.
End Narrow.

Section Engine.
  Context (x : Ext) (shape : str -> str) (ngrams : list str -> nat -> list str) (mx : Math) (L : Loader)
          (fo : path -> orders) (uo : path -> nat -> HashOrder) (f : fs) (p : path) (en : Engine) (m : EngineModel) (input : str).
  Hypothesis Hen : from_path x shape ngrams mx L fo uo f p = Ok en.
  Hypothesis Hm : file_says L fo f p $"nlu_engine.json" d_engine m.
  Hypothesis X : externals_ok x L (en_resources en) input.
  Hypothesis Z : sizes_ok x L fo f p m (en_resources en) input.
  Notation made name ip := (parser_at x shape ngrams mx L fo uo f (en_resources en) (pjoin p name) ip).
  Notation knows := (understood x L (en_resources en) input).

  Lemma engine_made : Forall2 (fun name ip => made name ip) (em_parsers m) (en_parsers en).
  Proof.
    apply engine_iff in Hen. destruct Hen as (_ & _ & m' & M & _ & F). rewrite (says_fun _ _ _ _ _ _ _ _ Hm M). exact F.
  Qed.

  Lemma parses_narrow name ip r wl wl' a : In name (em_parsers m) -> made name ip -> rules_at L fo f (pjoin p name) r ->
    narrower wl' wl -> ip_parse ip input wl = Ok a -> exists b, ip_parse ip input wl' = Ok b.
  Proof.
    intros I P R N A. pose proof (Z _ _ I R) as Fit. destruct X as (T & B & C & G). destruct r as [dm|lm]; destruct R as [U S].
    - destruct P as [(U' & dm' & dp & S' & Nw & ->)|[(U' & _)|(U' & _)]]; try discriminate (unit_fun _ _ _ _ _ _ U U').
      rewrite <- (says_fun _ _ _ _ _ _ _ _ S S') in Nw. clear dm' S'. cbn [ip_parse det_intent_parser] in *.
      unfold det_parse, det_parse_top in A. bind_inv A. bind_inv E.
      destruct (det_matches_narrow x wl' wl N (uo (pjoin p name) 3) dp input a1) as (ms & Ems); [|exact E0|].
      { intros i sc Hi. destruct (det_fields _ _ _ _ _ _ _ _ _ Nw) as (_ & _ & -> & _ & _ & Sc). rewrite Sc in Hi. apply reorder_In, in_map_iff in Hi.
        destruct Hi as (im & E' & Hi). apply (f_equal fst) in E'. cbn [fst] in E'. subst i. unfold hkeys. apply in_map, Hi. }
      assert (K : det_keys_once dm) by (destruct S as (j & _ & D); exact (det_once _ _ _ D)).
      destruct (det_parse_rule _ _ _ _ _ _ Ems) as (b & Eb & _); [|eauto].
      eapply det_countable; [exact G|]. eapply det_matches_exact; eauto.
    - destruct P as [(U' & _)|[(U' & lm' & lp & S' & Nw & ->)|(U' & _)]]; try discriminate (unit_fun _ _ _ _ _ _ U U').
      rewrite <- (says_fun _ _ _ _ _ _ _ _ S S') in Nw. clear lm' S'. cbn [ip_parse lookup_intent_parser] in *.
      unfold lookup_parse, lookup_parse_top in A. bind_inv A. bind_inv E.
      destruct (lookup_matches_narrow x wl' wl N (uo (pjoin p name) 3) lp input a1 E0) as (ms & Ems).
      assert (K : NoDup (map fst (lm_stop_whitelist lm))) by (destruct S as (j & _ & D); exact (lookup_once _ _ _ D)).
      destruct (lookup_parse_rule _ _ _ _ _ _ Ems) as (b & Eb & _); [|eauto]. eapply matches_countable; eauto.
  Qed.

  Section Filter.
    Context (wl : option (list str)).
    Hypothesis O : understood_one_way x L fo f p m (en_resources en) input wl.
    Hypothesis W : own_entities x L fo f p m (en_resources en) input wl.

    Lemma rules_narrow name ip r wl' a : In name (em_parsers m) -> made name ip -> rules_at L fo f (pjoin p name) r ->
      narrower wl' wl -> ip_parse ip input wl = Ok a -> (forall i, ir_name (pr_intent a) = Some i -> allowed wl' i) ->
      ip_parse ip input wl' = Ok a /\ (ir_name (pr_intent a) = None -> a = no_intent).
    Proof.
      intros I P R N A H. destruct (parses_narrow _ _ _ _ _ _ I P R N A) as (b & Eb). rewrite Eb.
      destruct (rules_answer _ _ _ _ _ _ _ _ _ _ _ _ _ _ _ P R X (Z _ _ I R) A) as (A1 & A2 & A3).
      destruct (rules_answer _ _ _ _ _ _ _ _ _ _ _ _ _ _ _ P R X (Z _ _ I R) Eb) as (B1 & B2 & B3).
      destruct (ir_name (pr_intent a)) as [i|] eqn:Ea.
      - split; [|discriminate]. pose proof (A1 i eq_refl) as Ua.
        assert (Ub : knows wl' r i (pr_slots a)).
        { destruct r as [dm|lm].
          - destruct Ua as (l & El & _ & Ua). exists l. split; [exact El|]. split; [apply H; reflexivity|exact Ua].
          - apply (understood_narrow x (Some [i]) wl'); [intros k [<-|[]]; apply H; reflexivity|]. exact (W _ _ _ _ I R Ua). }
        assert (Ia : pr_intent a = mkIR (Some i) f1) by (apply (A3 i _ Ua); intros j s Q; exact (eq_sym (proj1 (O _ _ _ _ _ _ I R Ua Q)))).
        assert (Ib : pr_intent b = mkIR (Some i) f1).
        { apply (B3 i _ Ub). intros j s Q. apply (understood_narrow x wl' wl N) in Q. exact (eq_sym (proj1 (O _ _ _ _ _ _ I R Ua Q))). }
        assert (Q : knows wl' r i (pr_slots b)) by (apply B1; rewrite Ib; reflexivity).
        apply (understood_narrow x wl' wl N) in Q. destruct (O _ _ _ _ _ _ I R Ua Q) as [_ Es].
        clear - Ia Ib Es. destruct a as [ai sa], b as [bi sb]; cbn [pr_intent pr_slots] in *. congruence.
      - assert (No : forall i s, ~ knows wl r i s).
        { intros i s Q. assert (Ia : pr_intent a = mkIR (Some i) f1) by (apply (A3 i _ Q); intros j s' Q'; exact (eq_sym (proj1 (O _ _ _ _ _ _ I R Q Q')))).
          rewrite Ia in Ea. discriminate. }
        rewrite (A2 No), B2; [auto|]. intros i s Q. apply (No i s). apply (understood_narrow x wl' wl N), Q.
    Qed.

    Lemma parser_narrow name ip wl' a : In name (em_parsers m) -> made name ip ->
      narrower wl' wl -> ip_parse ip input wl = Ok a -> (forall i, ir_name (pr_intent a) = Some i -> allowed wl' i) ->
      ip_parse ip input wl' = Ok a.
    Proof.
      intros I P N A H. pose proof P as [(U & dm & dp & S & Nw & _)|[(U & lm & lp & S & Nw & _)|(U & es & c & fl & S & UC & C & F & E)]].
      - exact (proj1 (rules_narrow _ _ (Patterns dm) _ _ I P (conj U S) N A H)).
      - exact (proj1 (rules_narrow _ _ (Table lm) _ _ I P (conj U S) N A H)).
      - subst ip. cbn [ip_parse prob_intent_parser] in *. unfold prob_parse, prob_new in *. cbn [pp_classifier pp_fillers ic_get_intent logreg_classifier] in *.
        bind_inv A. pose proof E as E'. rewrite (classifier_narrow wl' wl N mx c input a0 E); [exact A|].
        clear - A H. destruct (ir_name a0) as [i|] eqn:Ei; [|discriminate]. intros j Ej. apply H. bind_inv A. injection A as <-. cbn [pr_intent]. congruence.
    Qed.

    Lemma loop_narrow wl' n : narrower wl' wl -> forall ips names sc r, Forall2 (fun name ip => made name ip) names ips ->
      (forall name, In name names -> In name (em_parsers m)) ->
      parse_loop x en input wl n sc ips = Ok r -> (forall i, ir_name (ps_intent r) = Some i -> allowed wl' i) ->
      parse_loop x en input wl' n sc ips = Ok r.
    Proof.
      intros N. induction ips as [|ip ips IH]; intros names sc r F Sub H A; inversion F as [|name ip0 ns ips0 P F']; subst; [exact H|].
      cbn [parse_loop] in *. bind_inv H. rename a into q, E into Eq.
      assert (K : forall i, ir_name (pr_intent q) = Some i -> allowed wl' i).
      { intros i Ei. rewrite Ei in H. bind_inv H. injection H as <-. apply A. exact Ei. }
      rewrite (parser_narrow _ _ _ _ (Sub name (or_introl eq_refl)) P N Eq K). cbn [bind].
      destruct (ir_name (pr_intent q)); [exact H|]. apply (IH _ _ _ F'); auto. intros k Hk. apply Sub. right. exact Hk.
    Qed.

    (** ** The slots of the answer *)
    Lemma slots_alone name ip r i a s : In name (em_parsers m) -> made name ip -> rules_at L fo f (pjoin p name) r -> allowed wl i ->
      ip_parse ip input wl = Ok a -> (forall k, ir_name (pr_intent a) = Some k -> k = i) -> ip_get_slots ip input i = Ok s ->
      s = pr_slots a /\ (ir_name (pr_intent a) = None -> s = []).
    Proof.
      intros I P R Al A H S.
      assert (Nr : narrower (Some [i]) wl) by (intros k [<-|[]]; exact Al).
      assert (H' : forall k, ir_name (pr_intent a) = Some k -> allowed (Some [i]) k) by (intros k Hk; left; symmetry; exact (H k Hk)).
      destruct (rules_narrow _ _ _ (Some [i]) _ I P R Nr A H') as [A' No].
      assert (Es : s = pr_slots a).
      { destruct P as [(_ & dm & dp & _ & _ & ->)|[(_ & lm & lp & _ & _ & ->)|(U & _)]].
        - cbn [ip_get_slots ip_parse det_intent_parser] in *. unfold det_get_slots in S. destruct (smem i _); [|discriminate].
          rewrite A' in S. injection S as <-. reflexivity.
        - cbn [ip_get_slots ip_parse lookup_intent_parser] in *. unfold lookup_get_slots in S. destruct (smem i _); [|discriminate].
          rewrite A' in S. injection S as <-. reflexivity.
        - destruct r; destruct R as [U' _]; discriminate (unit_fun _ _ _ _ _ _ U U'). }
      split; [exact Es|]. intros Ea. rewrite Es, (No Ea). reflexivity.
    Qed.

    Lemma loop_slots n i : allowed wl i -> forall ips names sc r sl, Forall2 (fun name ip => made name ip) names ips ->
      (forall name, In name names -> In name (em_parsers m)) ->
      (forall name l, names = l ++ [name] -> forall k, In k l -> exists r, rules_at L fo f (pjoin p k) r) ->
      parse_loop x en input wl n sc ips = Ok r -> ir_name (ps_intent r) = Some i -> ps_slots r <> [] ->
      get_slots_loop x en input i n ips = Ok sl -> sl = ps_slots r.
    Proof.
      intros Al. induction ips as [|ip ips IH]; intros names sc r sl F Sub Rf H Ei Ne S; inversion F as [|name ip0 ns ips0 P F']; subst.
      { cbn [parse_loop] in H. injection H as <-. discriminate. }
      pose proof (Sub name (or_introl eq_refl)) as I.
      cbn [parse_loop get_slots_loop] in *. bind_inv H. bind_inv S. rename a into q, a0 into s, E into Eq, E0 into Es.
      destruct (ir_name (pr_intent q)) as [k|] eqn:Ek.
      - bind_inv H. injection H as <-. cbn [ps_intent ps_slots] in *. assert (k = i) by congruence. subst k. clear Ei.
        assert (Q : s = pr_slots q).
        { pose proof P as [(U & dm & dp & D & _)|[(U & lm & lp & D & _)|(U & es & c & fl & D & UC & C & Fl & Eip)]].
          - refine (proj1 (slots_alone _ _ (Patterns dm) _ _ _ I P (conj U D) Al Eq _ Es)). congruence.
          - refine (proj1 (slots_alone _ _ (Table lm) _ _ _ I P (conj U D) Al Eq _ Es)). congruence.
          - subst ip. cbn [ip_parse ip_get_slots prob_intent_parser] in *. unfold prob_parse, prob_get_slots, prob_new in *.
            cbn [pp_classifier pp_fillers ic_get_intent logreg_classifier] in *. bind_inv Eq. rename a0 into it.
            assert (Ei : ir_name it = Some i) by (clear - Eq Ek; bind_inv Eq; injection Eq as <-; exact Ek).
            rewrite Ei in Eq. destruct (sget i _) as [g|]; [|discriminate]. cbn [ok_or bind] in *. bind_inv Eq. injection Eq as <-.
            cbn [pr_slots]. rewrite E1 in Es. injection Es as <-. reflexivity. }
        subst s. destruct (pr_slots q) as [|s0 s]; [cbn in E; injection E as <-; congruence|]. congruence.
      - destruct ns as [|nm ns].
        { inversion F'; subst. cbn [parse_loop] in H. injection H as <-. discriminate. }
        assert (R : exists r, rules_at L fo f (pjoin p name) r).
        { destruct (exists_last (l := name :: nm :: ns)) as (l & z & El); [discriminate|]. apply (Rf z l El).
          destruct l as [|l0 l]; [discriminate El|]. injection El as <- _. left. reflexivity. }
        destruct R as (rr & R). assert (Hk0 : forall k, ir_name (pr_intent q) = Some k -> k = i) by congruence.
        destruct (slots_alone _ _ _ _ _ _ I P R Al Eq Hk0 Es) as [_ N0].
        rewrite (N0 Ek) in S. apply (IH (nm :: ns) (ir_score (pr_intent q)) r sl F'); auto.
        + intros k Hk. apply Sub. right. exact Hk.
        + intros z l El k Hk. apply (Rf z (name :: l)); [rewrite El; reflexivity|right; exact Hk].
    Qed.
    Lemma slots_succeed name ip r i a : In name (em_parsers m) -> made name ip -> rules_at L fo f (pjoin p name) r -> allowed wl i ->
      ip_parse ip input wl = Ok a -> lists_intent r i -> exists s, ip_get_slots ip input i = Ok s.
    Proof.
      intros I P R Al A Li. assert (Nr : narrower (Some [i]) wl) by (intros k [<-|[]]; exact Al).
      destruct (parses_narrow _ _ _ _ _ _ I P R Nr A) as (b & Eb).
      destruct P as [(U & dm & dp & D & Nw & ->)|[(U & lm & lp & D & Nw & ->)|(U & _)]].
      - cbn [ip_get_slots ip_parse det_intent_parser] in *. unfold det_get_slots. destruct r as [dm'|lm']; destruct R as [U' D'].
        2: discriminate (unit_fun _ _ _ _ _ _ U U').
        rewrite (says_fun _ _ _ _ _ _ _ _ D' D) in Li. cbn [lists_intent] in Li.
        destruct (det_fields _ _ _ _ _ _ _ _ _ Nw) as (_ & _ & _ & _ & (rx & Ec & Er) & _).
        assert (K : smem i (hkeys (dp_regexes dp)) = true).
        { apply smem_spec. unfold hkeys. rewrite Er. apply in_map_iff. rewrite <- (compile_keys _ _ _ Ec) in Li. apply in_map_iff in Li as (e & E1 & E2).
          exists e. split; [exact E1|]. apply reorder_In. exact E2. }
        rewrite K, Eb. cbn [bind]. eauto.
      - cbn [ip_get_slots ip_parse lookup_intent_parser] in *. unfold lookup_get_slots. destruct r as [dm'|lm']; destruct R as [U' D'].
        1: discriminate (unit_fun _ _ _ _ _ _ U U').
        rewrite (says_fun _ _ _ _ _ _ _ _ D' D) in Li. cbn [lists_intent] in Li.
        destruct (lookup_fields _ _ _ _ _ Nw) as (_ & _ & In_ & _).
        assert (K : smem i (lp_intents_names lp) = true) by (apply smem_spec; rewrite In_; exact Li).
        rewrite K, Eb. cbn [bind]. eauto.
      - destruct r; destruct R as [U' _]; discriminate (unit_fun _ _ _ _ _ _ U U').
    Qed.

    Lemma loop_slots_ok n i : allowed wl i -> all_list_intent L fo f p m i ->
      forall ips names sc r, Forall2 (fun name ip => made name ip) names ips ->
      (forall name, In name names -> In name (em_parsers m)) ->
      (forall name l, names = l ++ [name] -> forall k, In k l -> exists r, rules_at L fo f (pjoin p k) r) ->
      parse_loop x en input wl n sc ips = Ok r -> ir_name (ps_intent r) = Some i -> ps_slots r <> [] ->
      exists sl, get_slots_loop x en input i n ips = Ok sl.
    Proof.
      intros Al Li. induction ips as [|ip ips IH]; intros names sc r F Sub Rf H Ei Ne; inversion F as [|name ip0 ns ips0 P F']; subst.
      { cbn [parse_loop] in H. injection H as <-. discriminate. }
      pose proof (Sub name (or_introl eq_refl)) as I.
      cbn [parse_loop get_slots_loop] in *. bind_inv H. rename a into q, E into Eq.
      destruct (ir_name (pr_intent q)) as [k|] eqn:Ek.
      - bind_inv H. injection H as <-. cbn [ps_intent ps_slots] in *. assert (k = i) by congruence. subst k. clear Ei.
        assert (Hk0 : forall k, ir_name (pr_intent q) = Some k -> k = i) by congruence.
        assert (Q : ip_get_slots ip input i = Ok (pr_slots q)).
        { assert (Rules : forall r, rules_at L fo f (pjoin p name) r -> ip_get_slots ip input i = Ok (pr_slots q)).
          { intros r R. destruct (slots_succeed _ _ _ _ _ I P R Al Eq (Li _ _ I R)) as (s & Es).
            destruct (slots_alone _ _ _ _ _ _ I P R Al Eq Hk0 Es) as [-> _]. exact Es. }
          pose proof P as [(U & dm & dp & D & _)|[(U & lm & lp & D & _)|(U & es & c & fl & D & UC & C & Fl & Eip)]].
          - exact (Rules (Patterns dm) (conj U D)).
          - exact (Rules (Table lm) (conj U D)).
          - subst ip. cbn [ip_parse ip_get_slots prob_intent_parser] in *. unfold prob_parse, prob_get_slots, prob_new in *.
            cbn [pp_classifier pp_fillers ic_get_intent logreg_classifier] in *. bind_inv Eq. rename a0 into it.
            assert (Ei : ir_name it = Some i) by (clear - Eq Ek; bind_inv Eq; injection Eq as <-; exact Ek).
            rewrite Ei in Eq. destruct (sget i _) as [g|]; [|discriminate]. cbn [ok_or bind] in *. bind_inv Eq. injection Eq as <-.
            cbn [pr_slots]. exact E1. }
        rewrite Q. cbn [bind]. destruct (pr_slots q) as [|s0 s]; [cbn in E; injection E as <-; congruence|]. eauto.
      - destruct ns as [|nm ns].
        { inversion F'; subst. cbn [parse_loop] in H. injection H as <-. discriminate. }
        assert (R : exists r, rules_at L fo f (pjoin p name) r).
        { destruct (exists_last (l := name :: nm :: ns)) as (l & z & El); [discriminate|]. apply (Rf z l El).
          destruct l as [|l0 l]; [discriminate El|]. injection El as <- _. left. reflexivity. }
        destruct R as (rr & R). assert (Hk0 : forall k, ir_name (pr_intent q) = Some k -> k = i) by congruence.
        destruct (slots_succeed _ _ _ _ _ I P R Al Eq (Li _ _ I R)) as (s & Es). rewrite Es. cbn [bind].
        destruct (slots_alone _ _ _ _ _ _ I P R Al Eq Hk0 Es) as [_ N0]. rewrite (N0 Ek).
        apply (IH (nm :: ns) (ir_score (pr_intent q)) r F'); auto.
        + intros k Hk. apply Sub. right. exact Hk.
        + intros z l El k Hk. apply (Rf z (name :: l)); [rewrite El; reflexivity|right; exact Hk].
    Qed.
  End Filter.

  Lemma narrow_parse : forall o1 o2 o1' o2' w b w' b' wl wl' n r,
    get_intents_whitelist o1 en w b = Ok wl -> get_intents_whitelist o1' en w' b' = Ok wl' -> narrower wl' wl ->
    understood_one_way x L fo f p m (en_resources en) input wl -> own_entities x L fo f p m (en_resources en) input wl ->
    parse_with_alternatives x o1 o2 en input w b 0 n = Ok r -> (forall i, ir_name (ps_intent r) = Some i -> allowed wl' i) ->
    parse_with_alternatives x o1' o2' en input w' b' 0 n = Ok r.
  Proof.
    intros o1 o2 o1' o2' w b w' b' wl wl' n r E1 E2 N O W H A. unfold parse_with_alternatives in *. rewrite E1 in H. rewrite E2. cbn [bind Nat.eqb] in *.
    bind_inv H. injection H as <-. rewrite (loop_narrow wl O W wl' n N _ _ _ _ engine_made (fun _ h => h) E A). reflexivity.
  Qed.
  Lemma narrow_slots : forall o1 o2 w b wl n r i sl,
    get_intents_whitelist o1 en w b = Ok wl -> allowed wl i -> rules_first L fo f p m ->
    understood_one_way x L fo f p m (en_resources en) input wl -> own_entities x L fo f p m (en_resources en) input wl ->
    parse_with_alternatives x o1 o2 en input w b 0 n = Ok r -> ir_name (ps_intent r) = Some i -> ps_slots r <> [] ->
    get_slots_with_alternatives x en input i n = Ok sl -> sl = ps_slots r.
  Proof.
    intros o1 o2 w b wl n r i sl E1 Al Rf O W H Ei Ne S. unfold parse_with_alternatives in H. rewrite E1 in H. cbn [bind Nat.eqb] in H.
    bind_inv H. injection H as <-. unfold get_slots_with_alternatives in S.
    refine (loop_slots wl O W n i Al _ _ _ _ _ engine_made (fun _ h => h) _ E Ei Ne S). intros name l El k Hk. exact (Rf l name El k Hk).
  Qed.
  Lemma narrow_slots_found : forall o1 o2 w b wl n r i,
    get_intents_whitelist o1 en w b = Ok wl -> allowed wl i -> rules_first L fo f p m -> all_list_intent L fo f p m i ->
    understood_one_way x L fo f p m (en_resources en) input wl -> own_entities x L fo f p m (en_resources en) input wl ->
    parse_with_alternatives x o1 o2 en input w b 0 n = Ok r -> ir_name (ps_intent r) = Some i -> ps_slots r <> [] ->
    get_slots_with_alternatives x en input i n = Ok (ps_slots r).
  Proof.
    intros o1 o2 w b wl n r i E1 Al Rf Li O W H Ei Ne.
    assert (S : exists sl, get_slots_with_alternatives x en input i n = Ok sl).
    { unfold parse_with_alternatives in H. rewrite E1 in H. cbn [bind Nat.eqb] in H. bind_inv H. injection H as <-.
      refine (loop_slots_ok wl O W n i Al Li _ _ _ _ engine_made (fun _ h => h) _ E Ei Ne). intros name l El k Hk. exact (Rf l name El k Hk). }
    destruct S as (sl & S). rewrite S. f_equal. exact (narrow_slots _ _ _ _ _ _ _ _ _ E1 Al Rf O W H Ei Ne S).
  Qed.
End Engine.
