(** Proofs for C90: the engine. *)
From Coq Require Import String List NArith ZArith Bool Arith Lia Permutation.
From Verif Require Import Base Sorting F32 M_Types M_Utils M_Engine M_Det M_Lookup M_Feat M_Prob M_Features M_Crf M_Filler M_Cache M_Res M_Fs M_Json M_Load
  S_Base S_Utils S_Engine S_Det S_Rank S_Rules S_Load S_Match S_Answer S_Made S_Seeds S_Case S_Pad
  P_Base P_F32 P_Utils P_Engine P_Det P_Rank P_Rules P_Match P_MatchDet P_Load P_Made P_Seeds P_SeedsRules P_SeedsEngine P_SeedsIntents
  P_Case P_CaseEngine P_Pad P_PadDet P_PadFeat.
Import ListNotations.
Local Open Scope list_scope.
Local Open Scope nat_scope.

Section Engine.
  Context (x : Ext) (shape : str -> str) (ngrams : list str -> nat -> list str) (mx : Math) (L : Loader)
          (fo : path -> orders) (uo : path -> nat -> HashOrder) (f : fs) (p : path) (en : Engine) (m : EngineModel) (n k : nat) (input : str).
  Notation pad := (padded n k).
  Notation res := (en_resources en).
  Hypothesis blind : margin_blind x L.
  Hypothesis Some_text : input <> [].
  Hypothesis Short : (Z.of_nat (length (pad input)) < 2147483648)%Z.
  Hypothesis Hen : from_path x shape ngrams mx L fo uo f p = Ok en.
  Hypothesis Hm : file_says L fo f p $"nlu_engine.json" d_engine m.
  Hypothesis ext : externals_ok x L res input.

  Let HL k0 s := proj1 (blind n k0 s).
  Let HT l s := proj1 (proj2 (blind n k s)) l.
  Let HW l s := proj1 (proj2 (proj2 (blind n k s))) l.
  Let HB k0 s := proj2 (proj2 (proj2 (blind n k0 s))).
  Let TO := proj1 ext.
  Let Bok := proj1 (proj2 ext).
  Let Cok := proj1 (proj2 (proj2 ext)).

  Lemma builtin_moved k0 s kinds c a : rs_builtin res (padded n k0 s) kinds c a = on_ok (map (moved_entity n)) (rs_builtin res s kinds c a).
  Proof.
    destruct (entity_parsers x shape ngrams mx L fo uo f p en Hen) as (m' & b & cm & l & gaz & _ & Eb & Rb & _). rewrite !Rb, HL.
    apply (HB k0 (x_lower x s) f (pjoin p (em_builtin m')) b kinds a Eb).
  Qed.
  Lemma customs_moved kinds a : rs_custom res (pad input) kinds a = on_ok (map (moved_custom n)) (rs_custom res input kinds a).
  Proof.
    destruct (entity_parsers x shape ngrams mx L fo uo f p en Hen) as (m' & b & cm & l & gaz & _ & _ & _ & _ & _ & _ & Rc).
    pose proof (pad_length n k input). pose proof Cok as C. rewrite Rc in *. apply custom_moved with (len := length input).
    - intros s. apply HT.
    - apply HL.
    - lia.
    - intros es E e He. pose proof (C kinds a es E e He) as W. unfold wf_range in W. lia.
  Qed.

  Let parsers := engine_parsers x shape ngrams mx L fo uo f p en m Hen Hm.

  (** ** One parser *)
  Section Rules.
    Hypothesis Mg : rules_allow_margins x L fo f p m res n k input.

    Lemma det_moved name dm dp wl : In name (em_parsers m) -> rules_at L fo f (pjoin p name) (Patterns dm) ->
      det_new x (ld_lang L) (ld_regex L) (uo (pjoin p name) 0) (uo (pjoin p name) 1) (uo (pjoin p name) 2) dm res = Ok dp ->
      det_matches x (uo (pjoin p name) 3) dp (pad input) wl = on_ok (map (moved_result n)) (det_matches x (uo (pjoin p name) 3) dp input wl).
    Proof.
      intros I U N. destruct (Mg name _ I U) as [[Z1 Z2] PM]. cbn [of_reasonable_size] in *.
      assert (K : det_keys_once dm) by (destruct U as (_ & j & _ & D); exact (det_once _ _ _ D)).
      destruct (det_fields x (ld_lang L) (ld_regex L) _ _ _ dm res dp N) as (Lg & _ & _ & Rs & (regexes & C & Erx) & Sc).
      assert (Sco : forall i sc, In (i, sc) (dp_scopes dp) -> exists decls, In (i, decls) (dm_slots dm) /\ sc = det_scope x decls).
      { intros i sc H. rewrite Sc in H. apply reorder_In, in_map_iff in H as ([i' d] & E & H). cbn [fst snd] in E. injection E as <- <-. eauto. }
      assert (Rx : forall i rs re, In (i, rs) (dp_regexes dp) -> In re rs ->
                exists pats pat, In (i, pats) (dm_patterns dm) /\ In pat pats /\ ld_regex L pat = Ok re).
      { intros i rs re H Hre. rewrite Erx in H. apply reorder_In in H. unfold compile_regexes in C. destruct (mapM_In _ _ _ _ C H) as ([i' pats] & Hp & Ep).
        bind_inv Ep. injection Ep as <- <-. destruct (mapM_In _ _ _ _ E Hre) as (pat & Hpat & Ec). eauto. }
      assert (Sh' : forall i sc es, In (i, sc) (dp_scopes dp) -> entities_found (dp_res dp) input sc es ->
                (Z.of_nat (length (pad (snd (replace_entities input es (get_entity_placeholder x))))) < 32768)%Z).
      { intros i sc es H EF. destruct (Sco i sc H) as (decls & Hd & ->). rewrite Rs in EF. rewrite replace_entities_text, edits_eq.
        assert (OK : edits_ok (length input) 0 (edits_of (get_entity_placeholder x) (deduplicate_overlapping_entities es))).
        { apply dedup_edits_ok. intros e He. apply (found_ok x _ _ _ _ Bok Cok EF e He). }
        rewrite edits_eq in OK. rewrite <- (apply_moved_0 n k _ _ OK).
        destruct EF as (bes & ces & Eb & Ec & ->).
        specialize (Z2 i decls (map (moved_matched n) (deduplicate_overlapping_entities (map matched_of_builtin bes ++ map matched_of_custom ces))) Hd).
        unfold with_placeholders in Z2. rewrite map_map in Z2. cbn [moved_matched me_range me_name] in Z2. rewrite map_map. unfold moved_edit. cbn [fst snd].
        apply Z2. exists (det_scope x decls), (map (moved_matched n) (map matched_of_builtin bes ++ map matched_of_custom ces)).
        split; [apply scope_eq; reflexivity|]. split; [|symmetry; apply dedup_moved].
        exists (map (moved_entity n) bes), (map (moved_custom n) ces). rewrite builtin_moved, customs_moved, Eb, Ec. split; auto. split; auto.
        rewrite map_app, !map_map. reflexivity. }
      apply det_matches_moved; auto.
      - intros. rewrite Rs. apply builtin_moved.
      - intros. rewrite Rs. apply customs_moved.
      - rewrite Rs. exact Bok.
      - rewrite Rs. exact Cok.
      - intros i rs re H Hre. destruct (Rx i rs re H Hre) as (pats & pat & Hp & Hpat & Ec). apply (PM i pats pat re Hp Hpat Ec).
      - intros i sc rs re es mapping formatted cl Hsc Hrs Hre EF RE Ecl. destruct (Rx i rs re Hrs Hre) as (pats & pat & Hp & Hpat & Ec).
        destruct (Sco i sc Hsc) as (decls & Hd & E). pose proof (Sh' i sc es Hsc EF) as B. rewrite RE in B. cbn [snd] in B.
        pose proof (pad_length n k formatted). pose proof (pad_length n k input). rewrite Rs in EF.
        destruct (replaced input es _ mapping formatted (found_ok x _ _ _ _ Bok Cok EF) ltac:(lia) RE ltac:(lia)) as (Em & Et & _).
        rewrite edits_eq in Em, Et. rewrite Em.
        apply (proj2 (PM i pats pat re Hp Hpat Ec) (dp_lang dp) decls _ cl Lg Hd).
        + exists sc, es. split; [apply scope_eq; exact E|]. split; [exact EF|reflexivity].
        + apply (cleaned_eq x (ld_lang L) (ld_regex L) _ _ _ dm res dp N K TO). unfold with_placeholders. rewrite <- Et. exact Ecl.
    Qed.

    Lemma few_matches name wl lm lp ms : In name (em_parsers m) -> rules_at L fo f (pjoin p name) (Table lm) ->
      lookup_new (ld_lang L) (uo (pjoin p name) 0) lm res = Ok lp ->
      lookup_matches x (uo (pjoin p name) 3) lp input wl = Ok ms ->
      at_most_two (fun i => exists slots, understood x L res input wl (Table lm) i slots) ->
      countable ms /\ length ms <= 2.
    Proof.
      intros I U N E A. eapply (few x L fo uo f p en m input); eauto.
      intros name' t I' U'. apply (Mg name' (Table t) I' U').
    Qed.

    Lemma classifier_kept q c wl : classifier_at x ngrams L fo uo f res q c ->
      get_intents_with_whitelist mx c (pad input) wl = get_intents_with_whitelist mx c input wl.
    Proof.
      intros (cm & _ & _ & Fz & _). apply classifier_moved; auto. intros t Et. destruct (clm_featurizer cm) as [name|]; [|congruence].
      destruct Fz as (fz & (fm & Sf & (tm & _ & Nt) & Cz) & E). rewrite E in Et. injection Et as <-.
      apply (featurize_moved n k x ngrams HW res); auto.
      - intros. apply builtin_moved.
      - intros. apply customs_moved.
      - unfold tfidf_new in Nt. bind_inv Nt. bind_inv Nt. bind_inv Nt. bind_inv Nt. injection Nt as Nt. rewrite <- Nt. reflexivity.
      - intros cv Ecv. destruct (snd fm) as [cn|]; [|congruence]. destruct Cz as (co & Ez & (com & _ & Nc)). rewrite Ez in Ecv. injection Ecv as <-.
        unfold cooc_new in Nc. bind_inv Nc. bind_inv Nc. injection Nc as <-. reflexivity.
    Qed.
    Lemma fillers_moved q g : filler_at x shape L fo f res q g -> g (pad input) = on_ok (map (moved_internal n)) (g input).
    Proof.
      intros (_ & fm & cf & Sf & N & ->). apply (filler_moved n k x HT TO). intros fos Ef ft Hft.
      unfold crf_new in N. bind_inv N. bind_inv N. bind_inv N. injection N as N. rewrite <- N in Ef. cbn [cf_processor] in Ef.
      destruct (sm_crf_file fm) as [file|]; [|injection E0 as <-; discriminate].
      bind_inv E0. bind_inv E0. injection E0 as <-. cbn [snd] in Ef. injection Ef as <-.
      unfold processor_new in E3. bind_inv E3. injection E3 as <-. apply in_concat in Hft as (l & Hl & Hft).
      destruct (mapM_In _ _ _ _ E0 Hl) as (g & Hg & Eg). eapply (unmoved_features n x shape g res); eauto.
      intros. apply builtin_moved.
    Qed.

    Lemma parse_moved name ip wl : tables_hardly_ambiguous x L fo f p m res input wl ->
      In name (em_parsers m) -> parser_at x shape ngrams mx L fo uo f res (pjoin p name) ip ->
      ip_parse ip (pad input) wl = on_ok (moved_result n) (ip_parse ip input wl).
    Proof.
      intros A I [(U & dm & dp & S & N & ->)|[(U & lm & lp & S & N & ->)|(U & es & c & fl & S & UC & C & F & ->)]].
      - cbn [ip_parse det_intent_parser]. apply det_parse_moved. intros wl'. exact (det_moved name dm dp wl' I (conj U S) N).
      - cbn [ip_parse lookup_intent_parser]. pose proof (lookup_resources L en _ lm lp N) as Rs. apply lookup_parse_moved; rewrite ?Rs; auto.
        + intros. apply builtin_moved.
        + intros. apply customs_moved.
        + intros ms E. apply (few_matches name wl lm lp ms I (conj U S) N E). exact (A name lm I (conj U S)).
      - cbn [ip_parse prob_intent_parser]. unfold prob_parse, prob_new. cbn [pp_classifier pp_fillers ic_get_intent logreg_classifier].
        unfold cl_get_intent. rewrite (classifier_kept _ _ wl C).
        destruct (get_intents_with_whitelist _ _ _ _) as [rs| |]; auto. cbn [bind].
        set (r := match rs with r :: _ => r | [] => _ end). destruct (ir_name r) as [i|]; auto. destruct (sget i _) as [g|] eqn:Eg; auto. cbn [ok_or bind].
        apply sget_In, reorder_In, hcollect_In in Eg. destruct (Forall2_In_r _ _ _ _ F Eg) as (e & _ & _ & Fg).
        pose proof (fillers_moved _ _ Fg) as Fm. cbn [snd] in Fm. rewrite Fm. destruct (g input); reflexivity.
    Qed.

    Lemma slots_moved name ip i : In name (em_parsers m) -> parser_at x shape ngrams mx L fo uo f res (pjoin p name) ip ->
      ip_get_slots ip (pad input) i = on_ok (map (moved_internal n)) (ip_get_slots ip input i).
    Proof.
      intros I [(U & dm & dp & S & N & ->)|[(U & lm & lp & S & N & ->)|(U & es & c & fl & S & UC & C & F & ->)]].
      - cbn [ip_get_slots det_intent_parser]. apply det_slots_moved. intros wl'. exact (det_moved name dm dp wl' I (conj U S) N).
      - cbn [ip_get_slots lookup_intent_parser]. pose proof (lookup_resources L en _ lm lp N) as Rs. apply lookup_slots_moved; rewrite ?Rs; auto.
        + intros. apply builtin_moved.
        + intros. apply customs_moved.
        + intros ms E. apply (few_matches name (Some [i]) lm lp ms I (conj U S) N E).
          apply two_of_one with (i0 := i). intros k0 (sl & l & _ & R). destruct R as (A & _). destruct A as [A|[]]; auto.
      - cbn [ip_get_slots prob_intent_parser]. unfold prob_get_slots, prob_new. cbn [pp_fillers].
        destruct (sget i _) as [g|] eqn:Eg; auto. cbn [ok_or bind].
        apply sget_In, reorder_In, hcollect_In in Eg. destruct (Forall2_In_r _ _ _ _ F Eg) as (e & _ & _ & Fg).
        apply (fillers_moved _ _ Fg).
    Qed.

    Lemma intents_list_moved name ip : tables_hardly_ambiguous x L fo f p m res input None ->
      In name (em_parsers m) -> parser_at x shape ngrams mx L fo uo f res (pjoin p name) ip ->
      same_out same_list (ip_get_intents ip input) (ip_get_intents ip (pad input)).
    Proof.
      intros A I [(U & dm & dp & S & N & ->)|[(U & lm & lp & S & N & ->)|(U & es & c & fl & S & UC & C & F & ->)]].
      - cbn [ip_get_intents det_intent_parser]. rewrite (det_intents_moved n k x dp (uo (pjoin p name) 3) input).
        + apply out_refl. left. reflexivity.
        + intros wl'. exact (det_moved name dm dp wl' I (conj U S) N).
      - cbn [ip_get_intents lookup_intent_parser]. unfold lookup_get_intents, lookup_parse_top.
        pose proof (lookup_resources L en _ lm lp N) as Rs.
        assert (M : same_out (fun ms ms' => Permutation (map (moved_result n) ms) ms')
                      (lookup_matches x (uo (pjoin p name) 3) lp input None) (lookup_matches x (uo (pjoin p name) 3) lp (pad input) None)).
        { apply lookup_matches_moved; rewrite ?Rs; auto; intros; [apply builtin_moved|apply customs_moved]. }
        destruct (lookup_matches x (uo (pjoin p name) 3) lp input None) as [ms| |] eqn:E;
          destruct (lookup_matches x (uo (pjoin p name) 3) lp (pad input) None) as [ms'| |]; cbn [same_out bind] in *; auto; try contradiction.
        assert (CL : countable ms /\ length ms <= 2).
        { apply (few_matches name None lm lp ms I (conj U S) N E). exact (A name lm I (conj U S)). }
        destruct CL as [Cm L2]. set (k0 := map (moved_result n) ms) in *. assert (Ck : countable k0) by (apply countable_moved; exact Cm).
        assert (Lk : length k0 <= 2) by (unfold k0; rewrite map_length; exact L2).
        set (nb := length (lp_intents_names lp)). set (names := lp_intents_names lp).
        assert (En : map (fun r => ir_name (pr_intent r)) k0 = map (fun r => ir_name (pr_intent r)) ms) by (unfold k0; rewrite map_map; reflexivity).
        destruct (lookup_matches_spec _ _ _ _ _ _ E) as (rs & Hr & NDm & Sub & _).
        assert (B : both same_list (let* tops := rank_results nb k0 in Ok (complete_intents names (map pr_intent tops)))
                                   (let* tops := rank_results nb ms' in Ok (complete_intents names (map pr_intent tops)))).
        { apply listed_same; auto; [rewrite En; exact NDm|]. intros r Hk.
          assert (Ik : In (ir_name (pr_intent r)) (map (fun r => ir_name (pr_intent r)) ms)) by (rewrite <- En; apply (in_map (fun r => ir_name (pr_intent r))); exact Hk).
          apply in_map_iff in Ik as (r0 & E0 & H0). rewrite <- E0.
          destruct (candidate_results_name _ _ _ _ _ _ Hr (Sub r0 H0)) as (j & Nj & Hj & _). eauto. }
        assert (Q : (let* tops := rank_results nb k0 in Ok (complete_intents names (map pr_intent tops)))
                    = (let* tops := rank_results nb ms in Ok (complete_intents names (map pr_intent tops)))).
        { unfold k0. rewrite rank_moved. destruct (rank_results nb ms); auto. cbn [on_ok bind]. rewrite map_map. reflexivity. }
        rewrite Q in B. destruct (rank_ok nb ms Cm) as (s & Es & _). rewrite Es in *. cbn [bind] in *.
        destruct (let* tops := rank_results nb ms' in Ok (complete_intents names (map pr_intent tops))); cbn [both] in B; try contradiction. exact B.
      - cbn [ip_get_intents prob_intent_parser]. unfold prob_get_intents, prob_new. cbn [pp_classifier ic_get_intents logreg_classifier].
        unfold cl_get_intents. rewrite (classifier_kept _ _ None C). apply out_refl. left. reflexivity.
    Qed.

    (** ** Resolution *)
    Lemma resolve_one_moved bes ces a s :
      resolve_slot x en (map (moved_entity n) bes) (map (moved_custom n) ces) a (moved_internal n s)
      = on_ok (option_map (moved_slot n)) (resolve_slot x en bes ces a s).
    Proof.
      unfold resolve_slot. cbn [moved_internal is_entity]. destruct (sget (is_entity s) _) as [e|].
      - unfold resolve_custom_slot. cbn [moved_internal is_entity is_range is_value].
        assert (Fd : find (fun c => str_eqb (ce_entity c) (is_entity s) && range_eqb (ce_range c) (moved n (is_range s))) (map (moved_custom n) ces)
                     = option_map (moved_custom n) (find (fun c => str_eqb (ce_entity c) (is_entity s) && range_eqb (ce_range c) (is_range s)) ces)).
        { induction ces as [|c ces IH]; auto. cbn [map find moved_custom ce_entity ce_range]. rewrite moved_eqb. destruct (_ && _); auto. }
        rewrite Fd. destruct (find _ ces) as [c|]; cbn [option_map bind]; [reflexivity|].
        destruct (rs_custom _ _ _ _) as [found| |]; auto. cbn [bind].
        destruct (match vec_pop found with Some c => _ | None => _ end) as [c|]; [reflexivity|]. destruct e; reflexivity.
      - unfold resolve_builtin_slot. cbn [moved_internal is_entity is_range is_value]. destruct (x_kind_of_identifier x (is_entity s)) as [kd|]; auto. cbn [ok_or bind].
        assert (Fd : find (fun c => str_eqb (be_kind c) kd && range_eqb (be_range c) (moved n (is_range s))) (map (moved_entity n) bes)
                     = option_map (moved_entity n) (find (fun c => str_eqb (be_kind c) kd && range_eqb (be_range c) (is_range s)) bes)).
        { induction bes as [|c bes IH]; auto. cbn [map find moved_entity be_kind be_range]. rewrite moved_eqb. destruct (_ && _); auto. }
        rewrite Fd. destruct (find _ bes) as [c|]; cbn [option_map bind]; [reflexivity|].
        destruct (rs_builtin _ _ _ _ _) as [found| |]; auto. cbn [bind]. destruct (vec_pop found); reflexivity.
    Qed.
    Lemma resolve_moved a sl : resolve_slots x en (pad input) (map (moved_internal n) sl) a = on_ok (map (moved_slot n)) (resolve_slots x en input sl a).
    Proof.
      assert (K1 : forall sl, filter_map (fun s => x_kind_from_str x (is_entity s)) (map (moved_internal n) sl) = filter_map (fun s => x_kind_from_str x (is_entity s)) sl).
      { induction sl0 as [|s l IH]; auto. cbn [map filter_map moved_internal is_entity]. rewrite IH. reflexivity. }
      assert (K2 : forall sl, filter_map (fun s => match x_kind_from_str x (is_entity s) with Some _ => None | None => Some (is_entity s) end) (map (moved_internal n) sl)
                   = filter_map (fun s => match x_kind_from_str x (is_entity s) with Some _ => None | None => Some (is_entity s) end) sl).
      { induction sl0 as [|s l IH]; auto. cbn [map filter_map moved_internal is_entity]. rewrite IH. reflexivity. }
      unfold resolve_slots. cbv zeta. rewrite K1, K2. destruct sl as [|s sl]; auto. cbn [map].
      generalize (filter_map (fun s => x_kind_from_str x (is_entity s)) (s :: sl)). intros k1.
      generalize (filter_map (fun s => match x_kind_from_str x (is_entity s) with Some _ => None | None => Some (is_entity s) end) (s :: sl)). intros k2. clear K1 K2.
      rewrite builtin_moved. destruct (rs_builtin _ _ _ _ _) as [bes| |]; auto. cbn [on_ok bind].
      rewrite customs_moved. destruct (rs_custom _ _ _ _) as [ces| |]; auto. cbn [on_ok bind].
      change (moved_internal n s :: map (moved_internal n) sl) with (map (moved_internal n) (s :: sl)). rewrite (mapM_map (moved_internal n)).
      rewrite (mapM_moved (option_map (moved_slot n)) (resolve_slot x en bes ces a) (fun a0 => resolve_slot x en (map (moved_entity n) bes) (map (moved_custom n) ces) a (moved_internal n a0)))
        by (intros; apply resolve_one_moved).
      destruct (mapM _ _) as [o| |]; auto. cbn [on_ok bind]. f_equal.
      induction o as [|[s0|] o IH]; cbn [map option_map filter_map]; auto. f_equal. exact IH.
    Qed.

    (** ** Calls *)
    Lemma pad_loop wl a sc : tables_hardly_ambiguous x L fo f p m res input wl ->
      parse_loop x en (pad input) wl a sc (en_parsers en) = on_ok (moved_answer n k) (parse_loop x en input wl a sc (en_parsers en)).
    Proof.
      intros A. destruct parsers as [_ F].
      assert (G : forall ps sc, (forall ip, In ip ps -> exists name, In name (em_parsers m) /\ parser_at x shape ngrams mx L fo uo f res (pjoin p name) ip) ->
        parse_loop x en (pad input) wl a sc ps = on_ok (moved_answer n k) (parse_loop x en input wl a sc ps)).
      { induction ps as [|ip ps IH]; intros sc' Hp; cbn [parse_loop]; [reflexivity|].
        destruct (Hp ip (or_introl eq_refl)) as (name & In1 & Pa). rewrite (parse_moved _ _ _ A In1 Pa). destruct (ip_parse ip input wl) as [r| |]; auto.
        cbn [on_ok bind moved_result pr_intent pr_slots]. destruct (ir_name (pr_intent r)).
        - rewrite resolve_moved. destruct (resolve_slots _ _ _ _ _); reflexivity.
        - apply IH. intros ip' H'. apply Hp. right. exact H'. }
      apply G. intros ip Hip. destruct (Forall2_In_r _ _ _ _ F Hip) as (name & H1 & H2). eauto.
    Qed.
    Lemma pad_parse o1 o2 w b a :
      (forall wl, get_intents_whitelist o1 en w b = Ok wl -> tables_hardly_ambiguous x L fo f p m res input wl) ->
      parse_with_alternatives x o1 o2 en (pad input) w b 0 a = on_ok (moved_answer n k) (parse_with_alternatives x o1 o2 en input w b 0 a).
    Proof.
      intros A. unfold parse_with_alternatives. destruct (get_intents_whitelist o1 en w b) as [wl| |]; auto. cbn [bind].
      rewrite (pad_loop wl a _ (A wl eq_refl)). destruct (parse_loop _ _ _ _ _ _ _); reflexivity.
    Qed.
    Lemma pad_slots i a : get_slots_with_alternatives x en (pad input) i a = on_ok (map (moved_slot n)) (get_slots_with_alternatives x en input i a).
    Proof.
      unfold get_slots_with_alternatives. destruct parsers as [_ F].
      assert (G : forall ps, (forall ip, In ip ps -> exists name, In name (em_parsers m) /\ parser_at x shape ngrams mx L fo uo f res (pjoin p name) ip) ->
        get_slots_loop x en (pad input) i a ps = on_ok (map (moved_slot n)) (get_slots_loop x en input i a ps)).
      { induction ps as [|ip ps IH]; intros Hp; cbn [get_slots_loop]; [reflexivity|].
        destruct (Hp ip (or_introl eq_refl)) as (name & In1 & Pa). rewrite (slots_moved _ _ i In1 Pa). destruct (ip_get_slots ip input i) as [sl| |]; auto.
        cbn [on_ok bind]. pose proof (resolve_moved a sl) as R. destruct sl as [|s sl]; [apply IH; intros ip' H'; apply Hp; right; exact H'|]. exact R. }
      apply G. intros ip Hip. destruct (Forall2_In_r _ _ _ _ F Hip) as (name & H1 & H2). eauto.
    Qed.
    Lemma pad_intents o o' : tables_hardly_ambiguous x L fo f p m res input None ->
      same_out (@Permutation _) (get_intents o en input) (get_intents o' en (pad input)).
    Proof.
      intros A. unfold get_intents. destruct parsers as [_ F]. eapply out_bind with (R := same_merge).
      - apply merge_rel; [|split; [apply keyed_nil|split; [apply keyed_nil|reflexivity]]].
        intros ip Hip. destruct (Forall2_In_r _ _ _ _ F Hip) as (name & H1 & H2). eapply intents_list_moved; eauto.
      - intros a b S.
        assert (P : Permutation (map snd (reorder o a)) (map snd (reorder o' b))).
        { apply Permutation_map. eapply perm_trans; [apply Permutation_sym, reorder_perm|].
          eapply perm_trans; [exact (same_merge_perm _ _ S)|apply reorder_perm]. }
        pose proof (sort_same _ _ P) as B. unfold sort_desc in *. destruct (_ && _), (_ && _); cbn [both same_out] in *; auto; contradiction.
    Qed.
    Lemma pad_alternatives o1 o2 o2' w b c a : no_ties o2 en input -> tables_hardly_ambiguous x L fo f p m res input None ->
      (forall wl, get_intents_whitelist o1 en w b = Ok wl -> tables_hardly_ambiguous x L fo f p m res input wl) ->
      parse_with_alternatives x o1 o2' en (pad input) w b c a = on_ok (moved_answer n k) (parse_with_alternatives x o1 o2 en input w b c a).
    Proof.
      intros NT A0 A. unfold parse_with_alternatives. destruct (get_intents_whitelist o1 en w b) as [wl| |]; auto. cbn [bind].
      rewrite (pad_loop wl a _ (A wl eq_refl)). destruct (parse_loop x en input wl a _ (en_parsers en)) as [r| |]; auto. cbn [on_ok bind].
      destruct (c =? 0); auto.
      assert (E : get_intents o2' en (pad input) = get_intents o2 en input).
      { pose proof (pad_intents o2 o2' A0) as B.
        destruct (get_intents o2 en input) as [l| |] eqn:E, (get_intents o2' en (pad input)) as [l'| |] eqn:E'; cbn [same_out] in *; auto; try contradiction; [|congruence].
        f_equal. symmetry. apply sorted_no_ties; auto.
        + intros d e Hd He. apply (NT l); auto.
        + apply (get_intents_sorted _ _ _ _ E).
        + apply (get_intents_sorted _ _ _ _ E'). }
      rewrite E. destruct (get_intents o2 en input) as [l| |]; auto. cbn [bind].
      rewrite (mapM_moved (fun al => mkAlt (al_intent al) (map (moved_slot n) (al_slots al))) (alternative_of x en input a)).
      - destruct (mapM _ _); reflexivity.
      - intros r0 _. unfold alternative_of. destruct (ir_name r0); auto. rewrite pad_slots. destruct (get_slots_with_alternatives _ _ _ _ _); reflexivity.
    Qed.
  End Rules.

  Lemma pad_extract i sl a :
    extract_slot_with_alternatives x en (pad input) i sl a = on_ok (option_map (moved_slot n)) (extract_slot_with_alternatives x en input i sl a) \/
    exists e, extract_slot_with_alternatives x en input i sl a = Ok (Some (whole_text input e sl)) /\
              extract_slot_with_alternatives x en (pad input) i sl a = Ok (Some (whole_text (pad input) e sl)).
  Proof.
    unfold extract_slot_with_alternatives. destruct (sget i _) as [mp|]; auto. cbn [ok_or bind].
    destruct (sget sl mp) as [e|]; auto. cbn [ok_or bind]. destruct (sget e _) as [ext0|].
    - unfold extract_custom_slot. rewrite customs_moved. destruct (rs_custom _ _ _ _) as [es| |]; auto. cbn [on_ok bind].
      assert (V : vec_pop (map (moved_custom n) es) = option_map (moved_custom n) (vec_pop es)).
      { unfold vec_pop. induction es as [|c [|d es] IH]; auto. }
      rewrite V. destruct (vec_pop es) as [c|]; [left; reflexivity|]. destruct ext0; [right; exists e; split; reflexivity|left; reflexivity].
    - left. unfold extract_builtin_slot. destruct (x_kind_of_identifier x e) as [kd|]; auto. cbn [ok_or bind].
      rewrite builtin_moved. destruct (rs_builtin res input (Some [kd]) false a) as [es| |] eqn:Eb; auto. cbn [on_ok bind]. f_equal.
      destruct es as [|b es]; auto. cbn [map hd_error option_map moved_entity be_range be_entity be_alternatives].
      rewrite pad_substring; [reflexivity|]. pose proof (Bok _ _ _ _ Eb b (or_introl eq_refl)) as W. unfold wf_range in W. lia.
  Qed.
End Engine.
