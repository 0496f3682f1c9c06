(** Proofs for C83: the engine. *)
From Coq Require Import String List NArith ZArith Bool Arith Lia Permutation.
From Verif Require Import Base Sorting F32 M_Types M_Utils M_Engine M_Det M_Lookup M_Feat M_Prob M_Features M_Crf M_Filler M_Cache M_Res M_Fs M_Json M_Load
  S_Base S_Utils S_Engine S_Det S_Rank S_Rules S_Load S_Match S_Answer S_Made S_Seeds S_Case
  P_Base P_F32 P_Utils P_Engine P_Det P_Rank P_Rules P_Match P_MatchDet P_Load P_Made P_Seeds P_SeedsRules P_SeedsEngine P_SeedsIntents
  P_Case P_CaseFeat.
Import ListNotations.
Local Open Scope list_scope.
Local Open Scope nat_scope.

Lemma below_one p n : below p (pjoin p n).
Proof. exists [n]. reflexivity. Qed.
Lemma below_step p q n : below p q -> below p (pjoin q n).
Proof. intros [names ->]. exists (names ++ [n]). rewrite fold_left_app. reflexivity. Qed.

Lemma hcollect_In {V} (l : list (str * V)) e : In e (hcollect str_eqb l) -> In e l.
Proof.
  intros H. assert (G : forall (l m : list (str * V)), In e (fold_left (fun m kv => hinsert str_eqb (fst kv) (snd kv) m) l m) -> In e l \/ In e m).
  { clear. induction l as [|[k v] l IH]; intros m H; auto. cbn [fold_left fst snd] in H. apply IH in H as [H|H]; [left; right; auto|].
    assert (Q : In e (hinsert str_eqb k v m) -> e = (k, v) \/ In e m).
    { clear. induction m as [|[k' v'] m IH]; simpl; [intros [H|[]]; auto|]. destruct (str_eqb k k') eqn:E; simpl.
      - apply str_eqb_spec in E. subst k'. intros [H|H]; auto.
      - intros [H|H]; auto. destruct (IH H); auto. }
    destruct (Q H) as [->|Q']; [left; left; auto|auto]. }
  destruct (G l [] H) as [|[]]; auto.
Qed.

Lemma merge_rel input input' ps : forall m m',
  (forall ip, In ip ps -> same_out same_list (ip_get_intents ip input) (ip_get_intents ip input')) -> same_merge m m' ->
  same_out same_merge (merge_intents input ps m) (merge_intents input' ps m').
Proof.
  induction ps as [|ip ps IH]; intros m m' F M; [exact M|].
  cbn [merge_intents]. eapply out_bind; [apply F; left; reflexivity|]. intros l l' S. apply IH; [intros; apply F; right; auto|]. apply merge_step_same; auto.
Qed.

Section Engine.
  Context (x : Ext) (shape : str -> str) (ngrams : list str -> nat -> list str) (mx : Math) (L : Loader)
          (fo : path -> orders) (uo : path -> nat -> HashOrder) (f : fs) (p : path) (en : Engine) (m : EngineModel) (input input' : str).
  Notation alike := (same_text x).
  Hypothesis blind : case_blind x ngrams L.
  Hypothesis Hin : alike input input'.
  Hypothesis Hen : from_path x shape ngrams mx L fo uo f p = Ok en.
  Hypothesis Hm : file_says L fo f p $"nlu_engine.json" d_engine m.

  Let HL := proj1 blind.
  Let HN := proj1 (proj2 blind).
  Let HT := proj1 (proj2 (proj2 blind)).
  Let HW := proj1 (proj2 (proj2 (proj2 blind))).
  Let HG := proj1 (proj2 (proj2 (proj2 (proj2 blind)))).
  Let HD := proj1 (proj2 (proj2 (proj2 (proj2 (proj2 blind))))).
  Let HX := proj2 (proj2 (proj2 (proj2 (proj2 (proj2 blind))))).

  Lemma blind_res : blind_resources x (en_resources en).
  Proof.
    split; intros; apply (loaded_case_ignored x shape ngrams mx L fo uo f p en s s' Hen (HL _ _ H)).
  Qed.

  Lemma engine_parsers : en_dataset en = em_dataset m /\
    Forall2 (fun name ip => parser_at x shape ngrams mx L fo uo f (en_resources en) (pjoin p name) ip) (em_parsers m) (en_parsers en).
  Proof.
    apply engine_iff in Hen as (_ & _ & m' & H & D & F). apply says_iff in H. pose proof Hm as Hm'. apply says_iff in Hm'. rewrite Hm' in H.
    injection H as <-. auto.
  Qed.

  (** ** One parser *)
  Lemma blind_regexes q dm o1 o2 o3 dp : no_flags L fo f p -> below p q -> rules_at L fo f q (Patterns dm) ->
    det_new x (ld_lang L) (ld_regex L) o1 o2 o3 dm (en_resources en) = Ok dp ->
    forall i rs re s s', In (i, rs) (dp_regexes dp) -> In re rs -> alike s s' -> re s = re s'.
  Proof.
    intros NF Bq U N i rs re s s' Hi Hre Hs. apply det_fields in N as (_ & _ & _ & _ & (regexes & C & E) & _). rewrite E in Hi.
    apply reorder_In in Hi. unfold compile_regexes in C. destruct (mapM_In _ _ _ _ C Hi) as ([i' pats] & Hp & Ep). bind_inv Ep. injection Ep as <- <-.
    destruct (mapM_In _ _ _ _ E0 Hre) as (pat & Hpat & Ec). apply (HX pat re); auto. exact (NF q dm i' pats pat Bq U Hp Hpat).
  Qed.
  Lemma classifier_same q c wl : no_cooccurrences L fo f p -> below p q -> classifier_at x ngrams L fo uo f (en_resources en) q c ->
    get_intents_with_whitelist mx c input wl = get_intents_with_whitelist mx c input' wl.
  Proof.
    intros NC Bq (cm & _ & _ & Fz & _). apply (classifier_rel x); auto. intros t Et. destruct (clm_featurizer cm) as [name|]; [|congruence].
    destruct Fz as (fz & (fm & Sf & (tm & _ & Nt) & Cz) & E). rewrite E in Et. injection Et as <-.
    rewrite (NC _ fm (below_step _ _ _ Bq) Sf) in Cz. apply (featurize_rel x ngrams HL HN HW HG); auto.
    unfold tfidf_new in Nt. bind_inv Nt. bind_inv Nt. bind_inv Nt. bind_inv Nt. injection Nt as Nt. rewrite <- Nt. cbn [tv_res]. apply blind_res.
  Qed.
  Lemma filler_same q g : no_shapes L fo f p -> below p q -> filler_at x shape L fo f (en_resources en) q g ->
    same_out (Forall2 (same_internal x)) (g input) (g input').
  Proof.
    intros NS Bq (_ & fm & cf & Sf & N & ->). apply (filler_rel x HT); auto. intros fos Ef ft Hft.
    unfold crf_new in N. bind_inv N. bind_inv N. bind_inv N. injection N as N. rewrite <- N in Ef. cbn [cf_processor] in Ef.
    destruct (sm_crf_file fm) as [file|]; [|injection E0 as <-; discriminate].
    bind_inv E0. bind_inv E0. injection E0 as <-. cbn [snd] in Ef. injection Ef as <-.
    unfold processor_new in E3. bind_inv E3. injection E3 as <-. apply in_concat in Hft as (l & Hl & Hft).
    destruct (mapM_In _ _ _ _ E0 Hl) as (g & Hg & Eg). eapply (blind_features x shape HL HN HD g (en_resources en)); eauto.
    - apply blind_res.
    - intros En. apply (NS q fm Bq Sf). rewrite <- En. apply in_map, Hg.
  Qed.

  (** ** All parsers *)
  Section Parsers.
    Hypothesis Z : small_tables L fo f p m.

    Lemma few name wl lm lp ms : In name (em_parsers m) -> rules_at L fo f (pjoin p name) (Table lm) ->
      lookup_new (ld_lang L) (uo (pjoin p name) 0) lm (en_resources en) = Ok lp ->
      lookup_matches x (uo (pjoin p name) 3) lp input wl = Ok ms ->
      at_most_two (fun i => exists slots, understood x L (en_resources en) input wl (Table lm) i slots) ->
      countable ms /\ length ms <= 2.
    Proof.
      intros I U N E A. pose proof (Z _ _ I U) as Fit. cbn [understood] in *. destruct U as [_ Says].
      assert (K : NoDup (map fst (lm_stop_whitelist lm))) by (destruct Says as (j & _ & Dj); exact (lookup_once _ _ _ Dj)).
      assert (LG : ld_lang L (lm_language lm) = Some (lp_lang lp)).
      { pose proof N as N'. clear -N'. unfold lookup_new in N'. destruct (ld_lang L (lm_language lm)) as [l|]; [|discriminate].
        cbn [ok_or bind] in N'. injection N' as <-. reflexivity. }
      split; [eapply matches_countable; eauto|].
      assert (Pm : recognised_matches x (lp_lang lp) lm (en_resources en) input wl ms) by (eapply matches_exact; eauto).
      destruct Pm as (Nm & Pm & _). eapply at_most_two_length; [exact Nm| |exact A].
      intros r Hr. apply Pm in Hr as (i & Ei & Rec & _). exists i. split; [exact Ei|]. exists (pr_slots r), (lp_lang lp). auto.
    Qed.

    Lemma lookup_resources o lm lp : lookup_new (ld_lang L) o lm (en_resources en) = Ok lp ->
      lp_res lp = en_resources en.
    Proof. intros N. unfold lookup_new in N. bind_inv N. injection N as <-. reflexivity. Qed.

    Lemma parse_same name ip wl : no_cooccurrences L fo f p -> no_shapes L fo f p -> no_flags L fo f p ->
      tables_hardly_ambiguous x L fo f p m (en_resources en) input wl ->
      In name (em_parsers m) -> parser_at x shape ngrams mx L fo uo f (en_resources en) (pjoin p name) ip ->
      same_out (same_result x) (ip_parse ip input wl) (ip_parse ip input' wl).
    Proof.
      intros NC NS NF A I [(U & dm & dp & S & N & ->)|[(U & lm & lp & S & N & ->)|(U & es & c & fl & S & UC & C & F & ->)]].
      - cbn [ip_parse det_intent_parser]. apply (det_parse_rel x HN HT); auto.
        + apply det_fields in N as (_ & _ & _ & -> & _). apply blind_res.
        + exact (blind_regexes (pjoin p name) dm _ _ _ dp NF (below_one p name) (conj U S) N).
      - cbn [ip_parse lookup_intent_parser]. apply (lookup_parse_rel x HL HN HW); auto.
        + rewrite (lookup_resources _ _ _ N). apply blind_res.
        + intros ms E. apply (few name wl lm lp ms I (conj U S) N E). exact (A name lm I (conj U S)).
      - cbn [ip_parse prob_intent_parser]. unfold prob_parse, prob_new. cbn [pp_classifier pp_fillers ic_get_intent logreg_classifier].
        unfold cl_get_intent. rewrite <- (classifier_same _ _ wl NC (below_step _ _ _ (below_one p name)) C).
        destruct (get_intents_with_whitelist _ _ _ _) as [rs| |]; [|reflexivity|exact Logic.I]. cbn [bind].
        set (r := match rs with r :: _ => r | [] => _ end). eapply out_bind with (R := Forall2 (same_internal x)).
        + destruct (ir_name r) as [i|]; [|constructor]. destruct (sget i _) as [g|] eqn:Eg; [|reflexivity]. cbn [ok_or bind].
          apply sget_In, reorder_In, hcollect_In in Eg. destruct (Forall2_In_r _ _ _ _ F Eg) as (e & _ & _ & Fg).
          eapply filler_same; [exact NS| |exact Fg]. apply below_step, below_one.
        + intros sl sl' Fs. split; [reflexivity|exact Fs].
    Qed.

    Lemma slots_same name ip i : no_shapes L fo f p -> no_flags L fo f p ->
      In name (em_parsers m) -> parser_at x shape ngrams mx L fo uo f (en_resources en) (pjoin p name) ip ->
      same_out (Forall2 (same_internal x)) (ip_get_slots ip input i) (ip_get_slots ip input' i).
    Proof.
      intros NS NF I [(U & dm & dp & S & N & ->)|[(U & lm & lp & S & N & ->)|(U & es & c & fl & S & UC & C & F & ->)]].
      - cbn [ip_get_slots det_intent_parser]. apply (det_slots_rel x HN HT); auto.
        + apply det_fields in N as (_ & _ & _ & -> & _). apply blind_res.
        + exact (blind_regexes (pjoin p name) dm _ _ _ dp NF (below_one p name) (conj U S) N).
      - cbn [ip_get_slots lookup_intent_parser]. apply (lookup_slots_rel x HL HN HW); auto.
        + rewrite (lookup_resources _ _ _ N). apply blind_res.
        + intros ms E. apply (few name (Some [i]) lm lp ms I (conj U S) N E).
          apply two_of_one with (i0 := i). intros k (sl & l & _ & R). destruct R as (A & _). destruct A as [A|[]]; auto.
      - cbn [ip_get_slots prob_intent_parser]. unfold prob_get_slots, prob_new. cbn [pp_fillers].
        destruct (sget i _) as [g|] eqn:Eg; [|reflexivity]. cbn [ok_or bind].
        apply sget_In, reorder_In, hcollect_In in Eg. destruct (Forall2_In_r _ _ _ _ F Eg) as (e & _ & _ & Fg).
        eapply filler_same; [exact NS| |exact Fg]. apply below_step, below_one.
    Qed.

    Lemma intents_list_same name ip : no_cooccurrences L fo f p -> no_flags L fo f p ->
      tables_hardly_ambiguous x L fo f p m (en_resources en) input None ->
      In name (em_parsers m) -> parser_at x shape ngrams mx L fo uo f (en_resources en) (pjoin p name) ip ->
      same_out same_list (ip_get_intents ip input) (ip_get_intents ip input').
    Proof.
      intros NC NF A I [(U & dm & dp & S & N & ->)|[(U & lm & lp & S & N & ->)|(U & es & c & fl & S & UC & C & F & ->)]].
      - cbn [ip_get_intents det_intent_parser]. rewrite (det_intents_rel x HN HT dp (uo (pjoin p name) 3) input input' Hin).
        + apply out_refl. left. reflexivity.
        + apply det_fields in N as (_ & _ & _ & -> & _). apply blind_res.
        + exact (blind_regexes (pjoin p name) dm _ _ _ dp NF (below_one p name) (conj U S) N).
      - cbn [ip_get_intents lookup_intent_parser]. unfold lookup_get_intents, lookup_parse_top.
        assert (RB : blind_resources x (lp_res lp)) by (rewrite (lookup_resources _ _ _ N); apply blind_res).
        pose proof (lookup_matches_rel x HL HN HW lp (uo (pjoin p name) 3) input input' Hin RB None) as M.
        destruct (lookup_matches x (uo (pjoin p name) 3) lp input None) as [ms| |] eqn:E;
          destruct (lookup_matches x (uo (pjoin p name) 3) lp input' None) as [ms'| |]; cbn [same_out bind] in *; auto; try contradiction.
        destruct M as (k & Fk & P).
        assert (CL : countable ms /\ length ms <= 2).
        { apply (few name None lm lp ms I (conj U S) N E). exact (A name lm I (conj U S)). }
        destruct CL as [Cm L2]. assert (Ck : countable k) by (eapply countable_rel; eauto).
        assert (Lk : length k <= 2) by (rewrite <- (rel_length _ _ _ Fk); exact L2).
        set (n := length (lp_intents_names lp)). set (names := lp_intents_names lp).
        assert (Ei : map pr_intent k = map pr_intent ms) by (symmetry; apply (intents_rel x); exact Fk).
        assert (En : map (fun r => ir_name (pr_intent r)) k = map (fun r => ir_name (pr_intent r)) ms).
        { rewrite <- (map_map pr_intent ir_name k), <- (map_map pr_intent ir_name ms), Ei. reflexivity. }
        destruct (lookup_matches_spec _ _ _ _ _ _ E) as (rs & Hr & NDm & Sub & _).
        assert (B : both same_list (let* tops := rank_results n k in Ok (complete_intents names (map pr_intent tops)))
                                   (let* tops := rank_results n ms' in Ok (complete_intents names (map pr_intent tops)))).
        { apply listed_same; auto; [rewrite En; exact NDm|]. intros r Hk.
          assert (Ik : In (ir_name (pr_intent r)) (map (fun r => ir_name (pr_intent r)) ms)) by (rewrite <- En; apply (in_map (fun r => ir_name (pr_intent r))); exact Hk).
          apply in_map_iff in Ik as (r0 & E0 & H0). rewrite <- E0.
          destruct (candidate_results_name _ _ _ _ _ _ Hr (Sub r0 H0)) as (j & Nj & Hj & _). eauto. }
        assert (Q : same_out eq (let* tops := rank_results n ms in Ok (complete_intents names (map pr_intent tops)))
                                (let* tops := rank_results n k in Ok (complete_intents names (map pr_intent tops)))).
        { eapply out_bind; [apply rank_rel; exact Fk|]. intros t t' Ft. simpl. rewrite (intents_rel x _ _ Ft). reflexivity. }
        apply out_eq in Q. rewrite Q. destruct (rank_ok n k Ck) as (s & Es & _). rewrite Es in *. cbn [bind] in *.
        destruct (let* tops := rank_results n ms' in Ok (complete_intents names (map pr_intent tops))); cbn [both] in B; try contradiction. exact B.
      - cbn [ip_get_intents prob_intent_parser]. unfold prob_get_intents, prob_new. cbn [pp_classifier ic_get_intents logreg_classifier].
        unfold cl_get_intents. rewrite <- (classifier_same _ _ None NC (below_step _ _ _ (below_one p name)) C). apply out_refl. left. reflexivity.
    Qed.

    (** ** Resolution *)
    Lemma scope_rel {A} (g : InternalSlot -> option A) sl sl' : (forall a a', same_internal x a a' -> g a = g a') ->
      Forall2 (same_internal x) sl sl' -> filter_map g sl = filter_map g sl'.
    Proof. intros H. induction 1 as [|a a' sl sl' Ha F IH]; simpl; auto. rewrite <- (H _ _ Ha), IH. reflexivity. Qed.

    Lemma resolve_one_rel bes ces n s s' : same_internal x s s' ->
      same_out (opt_rel (same_slot x)) (resolve_slot x en bes ces n s) (resolve_slot x en bes ces n s').
    Proof.
      intros (E1 & E2 & E3 & E4). unfold resolve_slot. rewrite <- E2. destruct (sget (is_entity s) _) as [ext|].
      - unfold resolve_custom_slot. rewrite <- E1, <- E2. destruct (find _ ces) as [e|]; cbn [bind].
        + simpl. repeat split; auto.
        + rewrite <- (proj2 blind_res _ _ (Some [is_entity s]) n E4). destruct (rs_custom _ _ _ _) as [found| |]; [|reflexivity|exact I]. cbn [bind].
          rewrite <- (text_length _ _ _ E4). destruct (match vec_pop found with Some e => _ | None => _ end) as [e|]; cbn [bind same_out option_map].
          * simpl. repeat split; auto.
          * destruct ext; simpl; [|exact I]. repeat split; auto.
      - unfold resolve_builtin_slot. rewrite <- E1, <- E2. destruct (x_kind_of_identifier x (is_entity s)) as [k|]; [|reflexivity]. cbn [ok_or bind].
        destruct (find _ bes) as [e|]; cbn [bind].
        + simpl. repeat split; auto.
        + rewrite <- (proj1 blind_res _ _ (Some [k]) false n E4). destruct (rs_builtin _ _ _ _ _) as [found| |]; [|reflexivity|exact I]. cbn [bind].
          destruct (vec_pop found); simpl; auto. repeat split; auto.
    Qed.
    Lemma resolve_rel n sl sl' : Forall2 (same_internal x) sl sl' ->
      same_out (Forall2 (same_slot x)) (resolve_slots x en input sl n) (resolve_slots x en input' sl' n).
    Proof.
      intros F. unfold resolve_slots.
      assert (K1 : filter_map (fun s => x_kind_from_str x (is_entity s)) sl = filter_map (fun s => x_kind_from_str x (is_entity s)) sl')
        by (apply scope_rel; auto; intros a a' (_ & -> & _); reflexivity).
      assert (K2 : filter_map (fun s => match x_kind_from_str x (is_entity s) with Some _ => None | None => Some (is_entity s) end) sl =
                   filter_map (fun s => match x_kind_from_str x (is_entity s) with Some _ => None | None => Some (is_entity s) end) sl')
        by (apply scope_rel; auto; intros a a' (_ & -> & _); reflexivity).
      cbv zeta. rewrite <- K1, <- K2. generalize (filter_map (fun s => x_kind_from_str x (is_entity s)) sl). intros k1.
      generalize (filter_map (fun s => match x_kind_from_str x (is_entity s) with Some _ => None | None => Some (is_entity s) end) sl). intros k2. clear K1 K2.
      destruct F as [|s s' sl sl' Hs F]; [constructor|].
      rewrite <- (proj1 blind_res _ _ (Some k1) false n Hin). destruct (rs_builtin _ _ _ _ _); [|reflexivity|exact I]. cbn [bind].
      rewrite <- (proj2 blind_res _ _ (Some k2) n Hin). destruct (rs_custom _ _ _ _); [|reflexivity|exact I]. cbn [bind].
      eapply out_bind; [apply out_mapM with (R := same_internal x); [intros; apply resolve_one_rel; auto|constructor; auto]|].
      intros o o' Fo. simpl. eapply filter_map_rel; [|exact Fo]. auto.
    Qed.

    (** ** Calls *)
    Lemma case_loop wl n sc : no_cooccurrences L fo f p -> no_shapes L fo f p -> no_flags L fo f p ->
      tables_hardly_ambiguous x L fo f p m (en_resources en) input wl ->
      same_out (same_answer x) (parse_loop x en input wl n sc (en_parsers en)) (parse_loop x en input' wl n sc (en_parsers en)).
    Proof.
      intros NC NS NF A. destruct engine_parsers as [_ F].
      assert (G : forall ps sc, (forall ip, In ip ps -> exists name, In name (em_parsers m) /\ parser_at x shape ngrams mx L fo uo f (en_resources en) (pjoin p name) ip) ->
        same_out (same_answer x) (parse_loop x en input wl n sc ps) (parse_loop x en input' wl n sc ps)).
      { induction ps as [|ip ps IH]; intros sc' Hp; cbn [parse_loop]; [repeat split; auto; constructor|].
        destruct (Hp ip (or_introl eq_refl)) as (name & In1 & Pa). eapply out_bind; [eapply parse_same; eauto|]. intros r r' [Er Fr]. rewrite <- Er.
        destruct (ir_name (pr_intent r)).
        - eapply out_bind; [apply resolve_rel; exact Fr|]. intros sl sl' Fs. simpl. repeat split; auto; constructor.
        - apply IH. intros ip' H'. apply Hp. right. exact H'. }
      apply G. intros ip Hip. destruct (Forall2_In_r _ _ _ _ F Hip) as (name & H1 & H2). eauto.
    Qed.
    Lemma case_parse o1 o2 w b n : no_cooccurrences L fo f p -> no_shapes L fo f p -> no_flags L fo f p ->
      (forall wl, get_intents_whitelist o1 en w b = Ok wl -> tables_hardly_ambiguous x L fo f p m (en_resources en) input wl) ->
      same_out (same_answer x) (parse_with_alternatives x o1 o2 en input w b 0 n) (parse_with_alternatives x o1 o2 en input' w b 0 n).
    Proof.
      intros NC NS NF A. unfold parse_with_alternatives. destruct (get_intents_whitelist o1 en w b) as [wl| |]; [|reflexivity|exact I]. cbn [bind].
      eapply out_bind with (R := same_answer x); [apply case_loop; auto|]. intros r r' H. simpl. exact H.
    Qed.
    Lemma case_slots i n : no_shapes L fo f p -> no_flags L fo f p ->
      same_out (Forall2 (same_slot x)) (get_slots_with_alternatives x en input i n) (get_slots_with_alternatives x en input' i n).
    Proof.
      intros NS NF. unfold get_slots_with_alternatives. destruct engine_parsers as [_ F].
      assert (G : forall ps, (forall ip, In ip ps -> exists name, In name (em_parsers m) /\ parser_at x shape ngrams mx L fo uo f (en_resources en) (pjoin p name) ip) ->
        same_out (Forall2 (same_slot x)) (get_slots_loop x en input i n ps) (get_slots_loop x en input' i n ps)).
      { induction ps as [|ip ps IH]; intros Hp; cbn [get_slots_loop]; [constructor|].
        destruct (Hp ip (or_introl eq_refl)) as (name & In1 & Pa). eapply out_bind; [eapply slots_same; eauto|]. intros sl sl' Fs.
        destruct Fs as [|a a' sl sl' Ha Fs]; [apply IH; intros ip' H'; apply Hp; right; exact H'|]. apply resolve_rel. constructor; auto. }
      apply G. intros ip Hip. destruct (Forall2_In_r _ _ _ _ F Hip) as (name & H1 & H2). eauto.
    Qed.
    Lemma case_intents o o' : no_cooccurrences L fo f p -> no_flags L fo f p ->
      tables_hardly_ambiguous x L fo f p m (en_resources en) input None ->
      same_out (@Permutation _) (get_intents o en input) (get_intents o' en input').
    Proof.
      intros NC NF A. unfold get_intents. destruct engine_parsers as [_ F]. eapply out_bind with (R := same_merge).
      - apply merge_rel; [|split; [apply keyed_nil|split; [apply keyed_nil|reflexivity]]].
        intros ip Hip. destruct (Forall2_In_r _ _ _ _ F Hip) as (name & H1 & H2). eapply intents_list_same; eauto.
      - intros a b S.
        assert (P : Permutation (map snd (reorder o a)) (map snd (reorder o' b))).
        { apply Permutation_map. eapply perm_trans; [apply Permutation_sym, reorder_perm|].
          eapply perm_trans; [exact (same_merge_perm _ _ S)|apply reorder_perm]. }
        pose proof (sort_same _ _ P) as B. unfold sort_desc in *. destruct (_ && _), (_ && _); cbn [both same_out] in *; auto; contradiction.
    Qed.
    Lemma case_alternatives o1 o2 o2' w b k n : no_cooccurrences L fo f p -> no_shapes L fo f p -> no_flags L fo f p ->
      no_ties o2 en input -> tables_hardly_ambiguous x L fo f p m (en_resources en) input None ->
      (forall wl, get_intents_whitelist o1 en w b = Ok wl -> tables_hardly_ambiguous x L fo f p m (en_resources en) input wl) ->
      same_out (same_answer x) (parse_with_alternatives x o1 o2 en input w b k n) (parse_with_alternatives x o1 o2' en input' w b k n).
    Proof.
      intros NC NS NF NT A0 A. unfold parse_with_alternatives. destruct (get_intents_whitelist o1 en w b) as [wl| |]; [|reflexivity|exact I]. cbn [bind].
      eapply out_bind with (R := same_answer x); [apply case_loop; auto|]. intros r r' H. destruct (k =? 0); [exact H|].
      eapply out_bind with (R := eq).
      - pose proof (case_intents o2 o2' NC NF A0) as B.
        destruct (get_intents o2 en input) as [l| |] eqn:E, (get_intents o2' en input') as [l'| |] eqn:E'; cbn [same_out] in *; auto.
        apply sorted_no_ties; auto.
        + intros a c Ha Hc. apply (NT l); auto.
        + apply (get_intents_sorted _ _ _ _ E).
        + apply (get_intents_sorted _ _ _ _ E').
      - intros l l' <-. eapply out_bind with (R := Forall2 (same_alternative x)).
        + apply out_mapM_same. intros a _. unfold alternative_of.
          eapply out_bind with (R := Forall2 (same_slot x)).
          * destruct (ir_name a); [apply case_slots; auto|constructor].
          * intros sl sl' Fs. simpl. split; auto.
        + intros al al' Fa. destruct H as (H1 & H2 & H3 & _). simpl. repeat split; auto.
    Qed.
  End Parsers.

  Lemma case_extract i sl n : same_out (opt_rel (same_slot x)) (extract_slot_with_alternatives x en input i sl n) (extract_slot_with_alternatives x en input' i sl n).
  Proof.
    unfold extract_slot_with_alternatives. destruct (sget i _) as [mp|]; [|reflexivity]. cbn [ok_or bind].
    destruct (sget sl mp) as [e|]; [|reflexivity]. cbn [ok_or bind]. destruct (sget e _) as [ext|].
    - unfold extract_custom_slot. rewrite <- (proj2 blind_res _ _ (Some [e]) n Hin). destruct (rs_custom _ _ _ _) as [es| |]; [|reflexivity|exact I]. cbn [bind same_out].
      destruct (vec_pop es) as [c|]; simpl; [repeat split; auto; apply text_refl|]. destruct ext; simpl; auto. rewrite <- (text_length _ _ _ Hin). repeat split; auto.
    - unfold extract_builtin_slot. destruct (x_kind_of_identifier x e) as [k|]; [|reflexivity]. cbn [ok_or bind].
      rewrite <- (proj1 blind_res _ _ (Some [k]) false n Hin). destruct (rs_builtin _ _ _ _ _) as [es| |]; [|reflexivity|exact I]. cbn [bind same_out].
      destruct (hd_error es); simpl; auto. repeat split; auto. apply text_substring, Hin.
  Qed.
End Engine.
