(** Proofs that the calls of a loaded engine do not panic. *)
From Coq Require Import String List NArith ZArith Bool Arith Lia Reals Permutation.
From Flocq Require Import Core.Core IEEE754.BinarySingleNaN.
From Verif Require Import Base Sorting F32 M_Types M_Utils M_Engine M_Det M_Lookup M_Feat M_Prob M_Crf M_Features M_Filler
  M_Cache M_Fs M_Json M_Load S_Base S_Utils S_Det S_Engine S_Rules S_Rank S_Match S_Feat S_Prob S_Crf S_Filler S_Load S_Answer S_Safe
  P_Base P_F32 P_Engine P_Utils P_Det P_Rules P_Rank P_Match P_MatchDet P_Logit P_Prob P_Feat P_Crf P_Features P_Filler
  P_Custom P_Answer P_Load P_Norm.
Import ListNotations.
Local Open Scope nat_scope.

(** ** Calls that do not panic *)
Lemma safe_bind {A B} (m : outcome A) (k : A -> outcome B) :
  m <> Panic -> (forall a, m = Ok a -> k a <> Panic) -> bind m k <> Panic.
Proof. intros Hm Hk. destruct m; cbn [bind]; auto; congruence. Qed.
Lemma safe_ok_or {A} e (o : option A) : ok_or e o <> Panic.
Proof. destruct o; discriminate. Qed.
Lemma safe_mapM {A B} (f : A -> outcome B) l : (forall a, In a l -> f a <> Panic) -> mapM f l <> Panic.
Proof. intros H. apply mapM_not_panic. exact H. Qed.

(** ** Features *)
Lemma zero_within : within four f0.
Proof. split; reflexivity. Qed.
Lemma one_within : within four f1.
Proof. split; reflexivity. Qed.
Lemma zero_small : is_finite f0 = true /\ (Rabs (B2R f0) <= bpow radix2 88)%R.
Proof. split; [reflexivity|]. change (B2R f0) with 0%R. rewrite Rabs_R0. apply bpow_ge_0. Qed.
Lemma bump_small n : is_finite (bump n f0) = true /\ (Rabs (B2R (bump n f0)) <= bpow radix2 88)%R.
Proof.
  destruct (bump_bound n) as [F [L U]]. split; [exact F|]. rewrite Rabs_pos_eq by exact L.
  eapply Rle_trans; [exact U|]. apply bpow_le. lia.
Qed.

Lemma normalized_words ord v idf words : v <> [] -> (forall w i, In (w, i) v -> i < length idf) ->
  (forall w, In w idf -> within big w) ->
  exists n counts raw, vocabulary_size v = Ok n /\ count_words n (word_indices v words) = Ok counts /\
    apply_idf ord idf (word_indices v words) counts = Ok raw /\ forall c, In c (l2_normalize raw) -> within four c.
Proof.
  intros Nv Hi Hw. assert (VS := vocabulary_size_spec v). destruct (vocabulary_size v) as [n|e|]; [|destruct VS|contradiction].
  destruct VS as (i & -> & LI). set (idx := word_indices v words).
  assert (B := word_indices_bound v words i LI). fold idx in B.
  destruct (count_fold idx (repeat f0 (S i))) as (cs & E & L & N).
  { intros k Hk. rewrite repeat_length. auto. }
  rewrite repeat_length in L. exists (S i), cs.
  assert (Bi : forall k, In k idx -> k < length idf).
  { intros k Hk. unfold idx, word_indices in Hk. apply In_filter_map in Hk as (w & _ & Gw). apply sget_In in Gw. eauto. }
  set (ks := reorder ord (unique Nat.eqb idx)).
  assert (MEM : forall k, In k ks <-> In k idx) by (intros k; unfold ks; rewrite reorder_In, unique_nat_In; tauto).
  assert (ND : NoDup ks) by (eapply Permutation_NoDup; [apply reorder_perm|apply unique_nat_NoDup]).
  assert (IS := idf_fold idf ks cs ND). unfold apply_idf. fold ks.
  destruct (fold_left _ ks (Ok cs)) as [raw|e|].
  - destruct IS as (_ & I2 & I3); [intros k Hk; rewrite L; apply B, MEM, Hk|].
    exists raw. split; [reflexivity|]. split; [exact E|]. split; [reflexivity|].
    intros c Hc. rewrite l2_normalize_divisor in Hc. apply in_map_iff in Hc as (r & <- & Hr).
    apply normalized_bound; [|exact Hr]. apply Forall_forall. intros r' Hr'.
    apply In_nth_error in Hr' as [k Hk]. rewrite I3, N in Hk.
    assert (Kl : k < S i). { destruct (Nat.lt_ge_cases k (S i)) as [K|K]; auto. exfalso.
      assert (Q : nth_error (repeat f0 (S i)) k = None) by (apply nth_error_None; rewrite repeat_length; exact K).
      rewrite Q in Hk. cbn [option_map] in Hk. destruct (memb Nat.eqb k ks); discriminate. }
    rewrite nth_error_repeat in Hk by exact Kl. cbn [option_map] in Hk.
    destruct (memb Nat.eqb k ks) eqn:M.
    + destruct (nth_error idf k) as [w|] eqn:Ew; [|discriminate]. injection Hk as <-. apply weighted_bound.
      apply Hw. eapply nth_error_In; exact Ew.
    + injection Hk as <-. apply bump_small.
  - destruct IS. intros k Hk. rewrite L. apply B, MEM, Hk.
  - destruct IS as (k & K1 & K2); [intros k Hk; rewrite L; apply B, MEM, Hk|]. apply MEM, Bi in K1. lia.
Qed.

Lemma marked_pairs ord cv words : (forall p k, In (p, k) (cv_pairs cv) -> k < length (cv_pairs cv)) ->
  exists fs, mark_pairs (cv_pairs cv) (extract_word_pairs ord cv words) = Ok fs /\ forall c, In c fs -> within four c.
Proof.
  intros G. unfold mark_pairs. assert (M := mark_fold (cv_pairs cv) (extract_word_pairs ord cv words) (repeat f0 (length (cv_pairs cv)))).
  destruct (fold_left _ _ _) as [fs|e|].
  - destruct M as (L & _ & V). rewrite repeat_length in L, V. exists fs. split; [reflexivity|]. intros c Hc.
    apply In_nth_error in Hc as [k Hk]. assert (Kl : k < length (cv_pairs cv)) by (rewrite <- L; apply nth_error_Some; congruence).
    destruct (V k Kl) as [V1 V2].
    destruct (existsb (fun p => match hget pair_eqb p (cv_pairs cv) with Some j => j =? k | None => false end)
                (extract_word_pairs ord cv words)) eqn:X.
    + apply existsb_exists in X as (p & Hp & X). destruct (hget pair_eqb p (cv_pairs cv)) as [j|] eqn:G'; [|discriminate].
      apply Nat.eqb_eq in X. subst j. rewrite V1 in Hk by eauto. injection Hk as <-. apply one_within.
    + rewrite V2 in Hk.
      * rewrite nth_error_repeat in Hk by exact Kl. injection Hk as <-. apply zero_within.
      * intros (p & Hp & Gp). assert (T : existsb (fun p => match hget pair_eqb p (cv_pairs cv) with Some j => j =? k | None => false end)
                (extract_word_pairs ord cv words) = true); [|congruence].
        apply existsb_exists. exists p. split; [exact Hp|]. rewrite Gp. apply Nat.eqb_refl.
  - destruct M.
  - destruct M as (p & k & _ & Gk & K). rewrite repeat_length in K.
    apply (hget_In _ pair_eqb_spec) in Gk. apply G in Gk. lia.
Qed.

(** ** Scores *)
Definition numbers (l : list IntentResult) : Prop := forall r, In r l -> fis_nan (ir_score r) = false.

Lemma sort_numbers l : numbers l -> exists r, sort_desc ir_score l = Ok r /\ numbers r.
Proof.
  intros N. eexists. split; [apply sort_desc_no_nan; apply Forall_forall; exact N|].
  intros a Ha. apply N. eapply (proj1 (sort_desc_In ir_score l _ a ltac:(apply sort_desc_no_nan; apply Forall_forall; exact N))). exact Ha.
Qed.

(** ** Engines *)
Definition safe_parser (input : str) (p : IntentParser) : Prop :=
  (forall f, ip_parse p input f <> Panic) /\
  ip_get_intents p input <> Panic /\
  (forall l, ip_get_intents p input = Ok l -> numbers l) /\
  (forall i, ip_get_slots p input i <> Panic) /\
  (forall f r, ip_parse p input f = Ok r -> forall s, In s (pr_slots r) -> is_value s = substring input (is_range s)) /\
  (forall i l, ip_get_slots p input i = Ok l -> forall s, In s l -> is_value s = substring input (is_range s)).

Section Analysis.
  Context (x : Ext) (res : Resources) (input : str) (Tok : tokenizer_ok x)
    (HB : forall s f u n, rs_builtin res s f u n <> Panic)
    (HC : forall s, derived_text x res input s -> forall f n, rs_custom res s f n <> Panic).

  Lemma part_derived r : derived_text x res input (substring input r).
  Proof. left. eauto. Qed.
  Lemma input_derived : derived_text x res input input.
  Proof. left. exists (0, length input). symmetry. apply substring_whole. Qed.

  Section Engine.
    Context (en : Engine) (Hr : en_resources en = res) (Hp : forall p, In p (en_parsers en) -> safe_parser input p).

    Lemma resolve_safe slots alts : (forall s, In s slots -> is_value s = substring input (is_range s)) ->
      resolve_slots x en input slots alts <> Panic.
    Proof.
      intros Q. unfold resolve_slots. destruct slots as [|s0 rest] eqn:Es; [discriminate|]. rewrite <- Es in *. rewrite Hr.
      apply safe_bind; [apply HB|]. intros bes _. apply safe_bind; [apply HC, input_derived|]. intros ces _.
      apply safe_bind; [|discriminate]. apply safe_mapM. intros s Hs. unfold resolve_slot. rewrite Hr.
      destruct (sget _ _) as [ext|].
      - unfold resolve_custom_slot. apply safe_bind; [|discriminate]. destruct (find _ _); [discriminate|].
        apply safe_bind; [|discriminate]. apply HC. rewrite (Q s Hs). apply part_derived.
      - unfold resolve_builtin_slot. apply safe_bind; [apply safe_ok_or|]. intros k _. apply safe_bind; [|discriminate].
        destruct (find _ _); [discriminate|]. apply safe_bind; [|discriminate]. apply HB.
    Qed.

    Lemma parse_loop_safe wl salts : forall ps sc, (forall p, In p ps -> safe_parser input p) ->
      parse_loop x en input wl salts sc ps <> Panic.
    Proof.
      induction ps as [|p ps IH]; intros sc S; cbn [parse_loop]; [discriminate|].
      destruct (S p (or_introl eq_refl)) as (P1 & _ & _ & _ & P5 & _).
      apply safe_bind; [apply P1|]. intros r Er. destruct (ir_name (pr_intent r)).
      - apply safe_bind; [|discriminate]. apply resolve_safe. exact (P5 _ _ Er).
      - apply IH. intros q Hq. apply S. right. exact Hq.
    Qed.

    Lemma slots_loop_safe i salts : forall ps, (forall p, In p ps -> safe_parser input p) ->
      get_slots_loop x en input i salts ps <> Panic.
    Proof.
      induction ps as [|p ps IH]; intros S; cbn [get_slots_loop]; [discriminate|].
      destruct (S p (or_introl eq_refl)) as (_ & _ & _ & P4 & _ & P6).
      apply safe_bind; [apply P4|]. intros l El. destruct l as [|s l0] eqn:E.
      - apply IH. intros q Hq. apply S. right. exact Hq.
      - rewrite <- E in *. apply resolve_safe. exact (P6 _ _ El).
    Qed.

    Lemma opt_str_eqb_eq a b : opt_str_eqb a b = true <-> a = b.
    Proof. destruct a, b; cbn [opt_str_eqb]; try (split; congruence). rewrite str_eqb_spec. split; congruence. Qed.

    Definition map_numbers (m : list (option str * IntentResult)) : Prop := forall k r, In (k, r) m -> fis_nan (ir_score r) = false.
    Lemma hinsert_numbers k r m : map_numbers m -> fis_nan (ir_score r) = false -> map_numbers (hinsert opt_str_eqb k r m).
    Proof.
      intros M N k' r' H. induction m as [|[k0 r0] m IH]; cbn [hinsert] in H.
      - destruct H as [H|[]]. inv H. exact N.
      - destruct (opt_str_eqb k k0).
        + destruct H as [H|H]; [inv H; exact N|]. apply (M k' r'). right. exact H.
        + destruct H as [H|H]; [apply (M k' r'); left; exact H|]. apply IH; [|exact H].
          intros k1 r1 H1. apply (M k1 r1). right. exact H1.
    Qed.
    Lemma merge_one_numbers m r : map_numbers m -> fis_nan (ir_score r) = false -> map_numbers (merge_one m r).
    Proof.
      intros M N. unfold merge_one. destruct (flt _ _); [|exact M].
      destruct (hget _ _ _); apply hinsert_numbers; assumption.
    Qed.
    Lemma fold_numbers l : forall m, map_numbers m -> numbers l -> map_numbers (fold_left merge_one l m).
    Proof.
      induction l as [|r l IH]; intros m M N; [exact M|]. cbn [fold_left]. apply IH.
      - apply merge_one_numbers; [exact M|]. apply N. left. reflexivity.
      - intros a Ha. apply N. right. exact Ha.
    Qed.
    Lemma first_numbers l : numbers l -> map_numbers (merge_first l).
    Proof.
      intros N. unfold merge_first, hcollect.
      assert (G : forall l acc, numbers l -> map_numbers acc ->
        map_numbers (fold_left (fun m kv => hinsert opt_str_eqb (fst kv) (snd kv) m) (map (fun r => (ir_name r, r)) l) acc)).
      { clear l N. induction l as [|r l IH]; intros acc N A; [exact A|]. cbn [map fold_left fst snd]. apply IH.
        - intros a Ha. apply N. right. exact Ha.
        - apply hinsert_numbers; [exact A|]. apply N. left. reflexivity. }
      apply G; [exact N|]. intros k r [].
    Qed.

    Lemma merge_safe : forall ps m, (forall p, In p ps -> safe_parser input p) -> map_numbers m ->
      merge_intents input ps m <> Panic /\ forall m', merge_intents input ps m = Ok m' -> map_numbers m'.
    Proof.
      induction ps as [|p ps IH]; intros m S M; cbn [merge_intents].
      - split; [discriminate|]. intros m' H. inv H. exact M.
      - destruct (S p (or_introl eq_refl)) as (_ & P2 & P3 & _).
        destruct (ip_get_intents p input) as [l|e|] eqn:E; cbn [bind]; [|split; discriminate|contradiction].
        apply IH; [intros q Hq; apply S; right; exact Hq|]. destruct m as [|kr m].
        + apply first_numbers. apply P3. reflexivity.
        + apply fold_numbers; [exact M|]. apply P3. reflexivity.
    Qed.

    Lemma get_intents_safe ord : get_intents ord en input <> Panic.
    Proof.
      unfold get_intents. destruct (merge_safe (en_parsers en) [] Hp) as [P N]; [intros k r []|].
      apply safe_bind; [exact P|]. intros m Em.
      destruct (sort_numbers (map snd (reorder ord m))) as (r & -> & _); [|discriminate].
      intros r Hin. apply in_map_iff in Hin as ([k r'] & <- & Hin). apply reorder_In in Hin. exact (N m Em k r' Hin).
    Qed.

    Lemma get_slots_safe i salts : get_slots_with_alternatives x en input i salts <> Panic.
    Proof. apply slots_loop_safe. exact Hp. Qed.

    Lemma parse_safe o1 o2 w b n salts : parse_with_alternatives x o1 o2 en input w b n salts <> Panic.
    Proof.
      unfold parse_with_alternatives. apply safe_bind; [apply whitelist_never_panics|]. intros wl _.
      apply safe_bind; [apply parse_loop_safe, Hp|]. intros r _. destruct (n =? 0); [discriminate|].
      apply safe_bind; [apply get_intents_safe|]. intros l _. apply safe_bind; [|discriminate].
      apply safe_mapM. intros a _. unfold alternative_of. apply safe_bind; [|discriminate].
      destruct (ir_name a); [apply get_slots_safe|discriminate].
    Qed.

    Lemma extract_safe i name salts : extract_slot_with_alternatives x en input i name salts <> Panic.
    Proof.
      unfold extract_slot_with_alternatives. apply safe_bind; [apply safe_ok_or|]. intros mp _.
      apply safe_bind; [apply safe_ok_or|]. intros e _. rewrite Hr. destruct (sget _ _) as [ext|].
      - unfold extract_custom_slot. apply safe_bind; [|discriminate]. apply HC, input_derived.
      - unfold extract_builtin_slot. apply safe_bind; [apply safe_ok_or|]. intros k _.
        apply safe_bind; [apply HB|discriminate].
    Qed.
  End Engine.

  (** ** The rule based parsers *)
  Lemma ranked_safe n ms : countable ms -> exists tops, rank_results n ms = Ok tops /\
    forall r, In r tops -> fis_nan (ir_score (pr_intent r)) = false.
  Proof.
    intros C. destruct (rank_ok n ms C) as (sorted & E & P & _). exists (firstn n sorted). split; [exact E|].
    intros r Hin. assert (F := scored_finite ms C). rewrite Forall_forall in F. apply F.
    eapply Permutation_in; [symmetry; exact P|]. eapply subseq_In; [apply subseq_firstn|exact Hin].
  Qed.
  Lemma complete_numbers names (tops : list InternalParsingResult) :
    (forall r, In r tops -> fis_nan (ir_score (pr_intent r)) = false) -> numbers (complete_intents names (map pr_intent tops)).
  Proof.
    intros N r H. unfold complete_intents in H. apply in_app_or in H as [H|H].
    - apply in_map_iff in H as (t & <- & Ht). exact (N t Ht).
    - apply in_app_or in H as [H|[<-|[]]]; [|reflexivity]. apply in_map_iff in H as (i & <- & _). reflexivity.
  Qed.

  Section Det.
    Context (lang_of : str -> option lang) (compile : str -> outcome Regex) (o1 o2 o3 : HashOrder) (m : DetModel) (dp : DetParser)
      (New : det_new x lang_of compile o1 o2 o3 m res = Ok dp) (Fit : groups_fit compile) (Decl : groups_declared compile m).

    Lemma det_parts : dp_res dp = res /\ dp_groups dp = dm_groups m /\ dp_slots dp = dm_slots m /\
      forall i rs, sget i (dp_regexes dp) = Some rs -> exists ps, In (i, ps) (dm_patterns m) /\ mapM compile ps = Ok rs.
    Proof.
      assert (N := New). unfold det_new in N. bind_inv N. bind_inv N. inv N. cbn [dp_res dp_groups dp_slots dp_regexes].
      repeat split. intros i rs H. apply sget_In, reorder_In in H. unfold compile_regexes in E0.
      destruct (P_Rules.mapM_In _ _ _ _ E0 H) as ([i' ps] & Hin & Hc). bind_inv Hc. inv Hc. eauto.
    Qed.

    Lemma matching_safe i ps p r text mapping : In (i, ps) (dm_patterns m) -> In p ps -> compile p = Ok r ->
      get_matching_result x dp input text r i mapping <> Panic /\
      forall o, get_matching_result x dp input text r i mapping = Ok (Some o) -> (Z.of_nat (slot_count o) < 2 ^ 64)%Z.
    Proof.
      intros Hi Hq Hc. destruct det_parts as (_ & Gr & Sl & _). unfold get_matching_result.
      destruct (r text) as [caps|] eqn:Er; [|split; discriminate]. split.
      - apply safe_bind; [|discriminate]. apply safe_mapM. intros [n rg] Hg.
        assert (Hn : In (n, rg) (named_captures caps)).
        { rewrite <- named_eq. exact Hg. }
        destruct (Decl i ps p r text caps n rg Hi Hq Hc Er Hn) as (slot & entity & b & decls & B & G1 & G2 & G3).
        apply base_name_eq in B. subst b. unfold slot_of_group, sindex. cbn [fst snd]. rewrite Gr, Sl, G1. cbn [bind].
        rewrite G2. cbn [bind]. rewrite G3. discriminate.
      - intros o H. bind_inv H. inv H. unfold slot_count. cbn [pr_slots].
        apply mapM_ok_length in E. assert (B := Fit _ _ _ _ Hc Er).
        assert (L1 : length (deduplicate_overlapping_slots x (dp_lang dp) a) <= length a).
        { change (deduplicate_overlapping_slots x (dp_lang dp) a) with (resolve is_range (slot_sort_key x (dp_lang dp)) a).
          destruct (resolve_free is_range (slot_sort_key x (dp_lang dp)) a) as (_ & d & Pm & _).
          rewrite (Permutation_length Pm), app_length. lia. }
        assert (L2 : length (named_groups caps) <= length caps).
        { unfold named_groups. destruct caps as [|c caps]; [simpl; lia|]. cbn [skipn length]. clear.
          induction caps as [|[[n|] [r|]] l IH]; cbn [filter_map length] in *; lia. }
        lia.
    Qed.

    Lemma first_match_safe i ps cleaned text mapping : In (i, ps) (dm_patterns m) -> forall qs rs, (forall q, In q qs -> In q ps) ->
      mapM compile qs = Ok rs ->
      first_match x dp input cleaned text i mapping rs <> Panic /\
      forall o, first_match x dp input cleaned text i mapping rs = Ok (Some o) -> (Z.of_nat (slot_count o) < 2 ^ 64)%Z.
    Proof.
      intros Hi. induction qs as [|q qs IH]; intros rs Sub H.
      - inv H. split; discriminate.
      - cbn [mapM] in H. bind_inv H. bind_inv H. inv H. cbn [first_match].
        destruct (matching_safe i ps q a cleaned None Hi (Sub q (or_introl eq_refl)) E) as [A1 A2].
        destruct (matching_safe i ps q a text (Some mapping) Hi (Sub q (or_introl eq_refl)) E) as [B1 B2].
        destruct (get_matching_result x dp input cleaned a i None) as [[o|]|e|]; cbn [bind]; try (split; discriminate).
        + split; [discriminate|]. intros o' Ho. inv Ho. apply A2. reflexivity.
        + destruct (get_matching_result x dp input text a i (Some mapping)) as [[o|]|e|]; cbn [bind]; try (split; discriminate).
          * split; [discriminate|]. intros o' Ho. inv Ho. apply B2. reflexivity.
          * apply IH; [intros q' Hq'; apply Sub; right; exact Hq'|exact E0].
          * contradiction.
        + contradiction.
    Qed.

    Lemma match_intent_safe ord i sc : match_intent x ord dp input i sc <> Panic /\
      forall o, match_intent x ord dp input i sc = Ok (Some o) -> (Z.of_nat (slot_count o) < 2 ^ 64)%Z.
    Proof.
      destruct det_parts as (Rs & _ & _ & Pt). unfold match_intent. rewrite Rs.
      destruct (rs_builtin res input _ _ _) as [bes|e|] eqn:Eb; cbn [bind]; [|split; discriminate|exfalso; eapply HB; exact Eb].
      destruct (rs_custom res input _ _) as [ces|e|] eqn:Ec; cbn [bind]; [|split; discriminate|exfalso; eapply HC; [apply input_derived|exact Ec]].
      destruct (replace_entities input _ _) as [mapping formatted].
      rewrite !det_preprocess_eq by apply Tok. cbn [bind].
      destruct (sget i (dp_regexes dp)) as [rs|] eqn:Es; cbn [ok_or bind]; [|split; discriminate].
      destruct (Pt i rs Es) as (ps & Hi & Hc). eapply first_match_safe; [exact Hi| |exact Hc]. auto.
    Qed.

    Lemma det_matches_safe ord f : det_matches x ord dp input f <> Panic /\
      forall ms, det_matches x ord dp input f = Ok ms -> countable ms.
    Proof.
      unfold det_matches. split.
      - apply safe_bind; [|discriminate]. apply safe_mapM. intros a _. apply match_intent_safe.
      - intros ms H. bind_inv H. inv H. intros o Ho. apply In_filter_map in Ho as (o' & Ho & ->).
        destruct (P_Rules.mapM_In _ _ _ _ E Ho) as (e & _ & He). apply match_intent_safe in He. exact He.
    Qed.

    Lemma det_top_safe ord n f : det_parse_top x ord dp input n f <> Panic /\
      forall tops, det_parse_top x ord dp input n f = Ok tops -> forall r, In r tops -> fis_nan (ir_score (pr_intent r)) = false.
    Proof.
      unfold det_parse_top. destruct (det_matches_safe ord f) as [P C].
      destruct (det_matches x ord dp input f) as [ms|e|]; cbn [bind]; [|split; discriminate|contradiction].
      destruct (ranked_safe n ms (C ms eq_refl)) as (tops & -> & N). split; [discriminate|]. intros t H. inv H. exact N.
    Qed.

    Lemma det_safe ord : safe_parser input (det_intent_parser x ord dp).
    Proof.
      destruct (det_good x ord dp input) as [G1 G2].
      assert (P : forall f, det_parse x ord dp input f <> Panic).
      { intros f. unfold det_parse. apply safe_bind; [apply det_top_safe|discriminate]. }
      split; [exact P|]. split; [|split; [|split; [|split]]]; cbn [det_intent_parser ip_get_intents ip_get_slots].
      - unfold det_get_intents. apply safe_bind; [apply det_top_safe|discriminate].
      - intros l H. unfold det_get_intents in H. bind_inv H. inv H. apply complete_numbers. eapply det_top_safe; exact E.
      - intros i. unfold det_get_slots. destruct (smem _ _); [|discriminate]. apply safe_bind; [apply P|discriminate].
      - intros f r H. apply (G1 f r H).
      - intros i l H. apply (G2 i l H).
    Qed.
  End Det.

  Section Lookup.
    Context (lang_of : str -> option lang) (o : HashOrder) (m : LookupModel) (lp : LookupParser)
      (New : lookup_new lang_of o m res = Ok lp) (Sound : sound_lookup m).

    Lemma lookup_parts : lp_res lp = res /\ table_ok lp.
    Proof.
      assert (N := New). unfold lookup_new in N. bind_inv N. inv N. split; [reflexivity|]. exact Sound.
    Qed.

    Lemma candidates_safe f : get_candidates x lp input f <> Panic.
    Proof.
      destruct lookup_parts as [Rs _]. unfold get_candidates. apply safe_bind; [|discriminate]. apply safe_mapM.
      intros g _. unfold group_candidates. destruct (allowed_group f (gs_intents g)); [discriminate|].
      apply safe_bind; [|discriminate]. unfold get_all_entities. rewrite Rs.
      apply safe_bind; [apply safe_mapM; intros; apply safe_ok_or|]. intros ks _.
      apply safe_bind; [apply HB|]. intros bes _. apply safe_bind; [apply HC, input_derived|discriminate].
    Qed.

    Lemma lookup_top_safe ord n f : lookup_parse_top x ord lp input n f <> Panic /\
      forall tops, lookup_parse_top x ord lp input n f = Ok tops -> forall r, In r tops -> fis_nan (ir_score (pr_intent r)) = false.
    Proof.
      destruct lookup_parts as [_ T].
      assert (TC : table_countable lp) by (intros h i ss H; apply (T h i ss H)).
      assert (M : lookup_matches x ord lp input f <> Panic).
      { unfold lookup_matches. assert (C := candidates_safe f). apply safe_bind; [exact C|]. intros cands Ec.
        apply safe_bind; [|discriminate]. apply safe_mapM. intros c _ Hp.
        apply lookup_candidate_panic in Hp as (i & ss & H & B). apply (hget_In _ (fun a b => Z.eqb_eq a b)) in H.
        destruct (T _ _ _ H) as (V & VS & _). destruct B as [B|(nm & _ & _ & s & Hs & B)]; [contradiction|].
        apply B, VS. eapply subseq_In; [apply subseq_firstn|exact Hs]. }
      unfold lookup_parse_top. destruct (lookup_matches x ord lp input f) as [ms|e|] eqn:E; cbn [bind]; [|split; discriminate|contradiction].
      assert (C : countable ms).
      { destruct (lookup_matches_spec _ _ _ _ _ _ E) as (rs & CR & _ & Sub & _).
        intros r Hr. destruct (candidate_results_In _ _ _ _ _ _ CR (Sub r Hr)) as (cs & c & _ & _ & Em).
        eapply lookup_candidate_countable; eauto. }
      destruct (ranked_safe n ms C) as (tops & -> & N). split; [discriminate|]. intros t H. inv H. exact N.
    Qed.

    Lemma lookup_safe ord : safe_parser input (lookup_intent_parser x ord lp).
    Proof.
      destruct (lookup_good x ord lp input) as [G1 G2].
      assert (P : forall f, lookup_parse x ord lp input f <> Panic).
      { intros f. unfold lookup_parse. apply safe_bind; [apply lookup_top_safe|discriminate]. }
      split; [exact P|]. split; [|split; [|split; [|split]]]; cbn [lookup_intent_parser ip_get_intents ip_get_slots].
      - unfold lookup_get_intents. apply safe_bind; [apply lookup_top_safe|discriminate].
      - intros l H. unfold lookup_get_intents in H. bind_inv H. inv H. apply complete_numbers. eapply lookup_top_safe; exact E.
      - intros i. unfold lookup_get_slots. destruct (smem _ _); [|discriminate]. apply safe_bind; [apply P|discriminate].
      - intros f r H. apply (G1 f r H).
      - intros i l H. apply (G2 i l H).
    Qed.
  End Lookup.

  (** ** The probabilistic parser *)
  Section Features.
    Context (lang_of : str -> option lang) (ngrams : list str -> nat -> list str).

    Lemma tfidf_safe ord m tv : tfidf_new x lang_of m res = Ok tv -> sound_tfidf m ->
      tfidf_transform x ngrams ord tv input <> Panic /\
      forall fs, tfidf_transform x ngrams ord tv input = Ok fs -> forall c, In c fs -> within four c.
    Proof.
      intros New (S1 & S2 & S3). apply tfidf_new_spec in New as (_ & _ & V & I & Rs & St & _).
      unfold tfidf_transform.
      assert (W : tfidf_words x ngrams tv input <> Panic).
      { unfold tfidf_words. rewrite Rs. apply safe_bind; [apply HB|]. intros bes _. apply safe_bind; [|discriminate].
        apply HC. right. exists (tv_lang tv), (tv_stemmer tv), (x_tokenize_light x (tv_lang tv) input). split; [|split].
        - destruct (tm_stemming m); [right; destruct St as (s & -> & ->); reflexivity|left; exact St].
        - left. reflexivity.
        - unfold normalized_text, normalize_stem. destruct (tv_stemmer tv); reflexivity. }
      destruct (tfidf_words x ngrams tv input) as [words|e|]; cbn [bind]; [|split; discriminate|contradiction].
      rewrite V, I. destruct (normalized_words ord (tm_vocab m) (tm_idf m) words S1 S2 S3) as (n & counts & raw & -> & E2 & E3 & N).
      cbn [bind]. rewrite E2. cbn [bind]. rewrite E3. cbn [bind]. split; [discriminate|]. intros fs H. injection H as <-. exact N.
    Qed.

    Lemma cooc_safe ord m cv : cooc_new x lang_of m res = Ok cv -> good_pairs (cm_pairs m) ->
      cooc_transform x ord cv input <> Panic /\
      forall fs, cooc_transform x ord cv input = Ok fs -> forall c, In c fs -> within four c.
    Proof.
      intros New G. destruct (cooc_new_pairs _ _ _ _ _ New) as [Ep _]. rewrite (good_pairs_id _ G) in Ep.
      assert (Rs : cv_res cv = res) by (unfold cooc_new in New; bind_inv New; bind_inv New; inv New; reflexivity).
      unfold cooc_transform.
      assert (T : cooc_tokens x cv input <> Panic).
      { unfold cooc_tokens. rewrite Rs. apply safe_bind; [apply HB|]. intros bes _.
        apply safe_bind; [apply HC, input_derived|discriminate]. }
      destruct (cooc_tokens x cv input) as [toks|e|]; cbn [bind]; [|split; discriminate|contradiction].
      destruct (marked_pairs ord cv toks) as (fs & -> & N).
      - intros p k H. rewrite Ep in *. rewrite map_length. apply in_map_iff in H as (ip & H & Hin). injection H as _ <-.
        destruct G as (_ & _ & G). apply G. apply in_map. exact Hin.
      - split; [discriminate|]. intros fs' H. injection H as <-. exact N.
    Qed.

    Lemma featurize_safe o1 o2 fz :
      (exists m, tfidf_new x lang_of m res = Ok (fz_tfidf fz) /\ sound_tfidf m) ->
      (forall cv, fz_cooc fz = Some cv -> exists m, cooc_new x lang_of m res = Ok cv /\ good_pairs (cm_pairs m)) ->
      featurize x ngrams o1 o2 fz input <> Panic /\
      forall fs, featurize x ngrams o1 o2 fz input = Ok fs -> forall c, In c fs -> within four c.
    Proof.
      intros (m & New & Sm) C. unfold featurize. destruct (tfidf_safe o1 _ _ New Sm) as [T1 T2].
      destruct (tfidf_transform x ngrams o1 (fz_tfidf fz) input) as [fs|e|]; cbn [bind]; [|split; discriminate|contradiction].
      destruct (fz_cooc fz) as [cv|].
      - destruct (C cv eq_refl) as (mc & NewC & Gc). destruct (cooc_safe o2 _ _ NewC Gc) as [C1 C2].
        destruct (cooc_transform x o2 cv input) as [cs|e|]; cbn [bind]; [|split; discriminate|contradiction].
        split; [discriminate|]. intros out H. injection H as <-. intros c Hc. apply in_app_or in Hc as [Hc|Hc].
        + exact (T2 fs eq_refl c Hc).
        + exact (C2 cs eq_refl c Hc).
      - split; [discriminate|]. intros out H. injection H as <-. exact (T2 fs eq_refl).
    Qed.
  End Features.

  Section Classifier.
    Context (mx : Math) (Ex : exp_ok mx) (Ce : cell_ok mx).

    Definition bounded_logreg (lr : Logreg) : Prop :=
      lr_rows lr <> [] /\ (Z.of_nat (length (lr_rows lr)) <= 2 ^ 24)%Z /\
      forall r j, In r (lr_rows lr) -> j < lr_classes lr -> exists w, nth_error r j = Some w /\ within big w.

    Lemma logreg_bounded intercept coeffs lr : logreg_new intercept coeffs = Ok lr ->
      (forall v, In v intercept -> within big v) ->
      (forall row, In row coeffs -> (Z.of_nat (length row) < 2 ^ 24)%Z /\ forall v, In v row -> within big v) -> bounded_logreg lr.
    Proof.
      intros New Hi Hc. assert (S := logreg_new_spec intercept coeffs). rewrite New in S.
      destruct S as (Full & Cl & Len & Fst & Rows). split; [intros E; rewrite E in Fst; discriminate|]. split.
      - rewrite Len. destruct Full as (first & rest & -> & _). cbn [hd]. destruct (Hc first (or_introl eq_refl)) as [B _]. lia.
      - intros r j Hr Hj. rewrite Cl in Hj. apply In_nth_error in Hr as [[|i] Hi'].
        + assert (r = intercept) by congruence. subst r. destruct (nth_error intercept j) as [w|] eqn:E; [|apply nth_error_None in E; lia].
          exists w. split; [reflexivity|]. apply Hi. eapply nth_error_In; exact E.
        + assert (Li : i < length (hd [] coeffs)).
          { assert (S i < length (lr_rows lr)) by (apply nth_error_Some; congruence). lia. }
          destruct (Rows i j Li Hj) as (row & cls & R1 & R2 & R3 & R4). assert (row = r) by congruence. subst row.
          destruct (nth_error r j) as [w|] eqn:E; [|apply nth_error_None in E; lia].
          exists w. split; [reflexivity|]. apply nth_error_In in R2. apply (Hc cls R2). eapply nth_error_In. symmetry. exact R4.
    Qed.

    Context (c : Classifier)
      (Fe : forall t, cl_featurizer c = Some t -> t input <> Panic /\ forall fs, t input = Ok fs -> forall v, In v fs -> within four v)
      (Lr : forall lr, cl_logreg c = Some lr -> bounded_logreg lr).

    Lemma ranking_safe wl : get_intents_with_whitelist mx c input wl <> Panic /\
      forall l, get_intents_with_whitelist mx c input wl = Ok l -> numbers l.
    Proof.
      assert (U : forall l, numbers (map (fun i => mkIR i (match i with None => f1 | Some _ => f0 end)) l)).
      { intros l r H. apply in_map_iff in H as ([i|] & <- & _); reflexivity. }
      assert (Q : forall l, numbers l -> sort_desc ir_score l <> Panic /\ forall r, sort_desc ir_score l = Ok r -> numbers r).
      { intros l N. destruct (sort_numbers l N) as (r & -> & Nr). split; [discriminate|]. intros r' H. injection H as <-. exact Nr. }
      unfold get_intents_with_whitelist. destruct (length (cl_intents c) <=? 1).
      { split; [discriminate|]. intros l H. injection H as <-. intros r [<-|[]]. reflexivity. }
      destruct input as [|ch rest] eqn:Ei; [apply Q, U|]. rewrite <- Ei in *.
      destruct (cl_featurizer c) as [t|]; [|apply Q, U]. destruct (cl_logreg c) as [lr|]; [|apply Q, U].
      destruct (Fe t eq_refl) as [F1 F2]. destruct (Lr lr eq_refl) as (L0 & L1 & L2).
      destruct (t input) as [fs|e|]; cbn [bind]; [|split; discriminate|contradiction].
      destruct (logreg_run mx lr fs) as [scores|e|] eqn:Es; cbn [bind]; [|split; discriminate|].
      2:{ unfold logreg_run in Es. destruct (_ =? _); discriminate. }
      apply Q. intros r H. apply filter_In in H as [H _]. apply in_map_iff in H as ([i s] & <- & H). cbn [ir_score].
      apply in_combine_r in H. apply unit_not_nan. eapply logreg_unit; [exact Ex| |exact Es|exact H].
      intros j Hj. apply Ce.
      - unfold logreg_run in Es. destruct (Nat.eqb_spec (length fs) (length (lr_rows lr) - 1)) as [Q1|]; [|discriminate].
        cbn [length]. destruct (lr_rows lr); cbn [length] in *; lia.
      - unfold logreg_run in Es. destruct (Nat.eqb_spec (length fs) (length (lr_rows lr) - 1)) as [Q1|]; [|discriminate].
        cbn [length]. destruct (lr_rows lr); [contradiction|]. cbn [length] in *. lia.
      - intros v [<-|Hv]; [apply one_within|]. exact (F2 fs eq_refl v Hv).
      - intros r Hr. apply L2; assumption.
    Qed.

    Lemma get_intent_safe wl : cl_get_intent mx c input wl <> Panic.
    Proof. unfold cl_get_intent. apply safe_bind; [apply ranking_safe|discriminate]. Qed.
  End Classifier.

  Lemma tokens_count s ts : tokens_ok s ts -> length ts <= length s.
  Proof.
    intros [V O].
    assert (G : forall ts c, (forall t, In t ts -> wf_range (length s) (tk_char_range t) /\ c <= rstart (tk_char_range t)) ->
      (forall i j a b, i < j -> nth_error ts i = Some a -> nth_error ts j = Some b -> rend (tk_char_range a) <= rstart (tk_char_range b)) ->
      ts = [] \/ c + length ts <= length s).
    { clear. induction ts as [|t ts IH]; intros c V O; [left; reflexivity|]. right.
      destruct (V t (or_introl eq_refl)) as [[W1 W2] W3].
      destruct (IH (rend (tk_char_range t))) as [->|IH'].
      - intros u Hu. split; [apply (V u); right; exact Hu|]. apply In_nth_error in Hu as [k Hk].
        apply (O 0 (S k) t u); [lia|reflexivity|exact Hk].
      - intros i j a b Hij Ha Hb. apply (O (S i) (S j) a b); [lia|exact Ha|exact Hb].
      - cbn [length]. lia.
      - cbn [length]. lia. }
    destruct (G ts 0) as [->|H]; [|exact O|cbn [length]; lia|lia]. intros t Ht. split; [apply (V t Ht)|lia].
  Qed.

  Section Filler.
    Context (shape : str -> str) (lang_of : str -> option lang) (load_tagger : str -> outcome Tagger) (m : SlotFillerModel)
      (cf : CrfFiller) (New : crf_new x shape lang_of load_tagger m res = Ok cf) (Sound : sound_filler m)
      (Off : forall f o, In f (sm_factories m) -> In o (ff_offsets f) -> is_i32 o)
      (Tag : forall p t, load_tagger p = Ok t -> tagger_ok t /\ tagger_never_panics t)
      (Len : (Z.of_nat (length input) < 2 ^ 29)%Z).

    Lemma cf_tagger_ok tg : cf_tagger cf = Some tg -> tagger_ok tg /\ tagger_never_panics tg.
    Proof.
      assert (N := New). unfold crf_new in N. bind_inv N. bind_inv N. bind_inv N. injection N as <-. cbn [cf_tagger].
      intros H. destruct (sm_crf_file m); [|injection E0 as <-; discriminate]. bind_inv E0. bind_inv E0. injection E0 as <-.
      cbn [fst] in H. injection H as <-. eapply Tag; eassumption.
    Qed.

    Lemma filler_safe : crf_get_slots x cf false input <> Panic.
    Proof.
      assert (Tk := Tok (cf_lang cf) input). assert (Cn := tokens_count _ _ Tk).
      eapply filler_calm; [exact New|exact Tk|lia| | |exact Off|exact cf_tagger_ok].
      - split; [exact HB|]. intros st s f n Hst Hs. apply HC. right.
        exists (cf_lang cf), st, (map tk_value (x_tokenize x (cf_lang cf) input)). split; [exact Hst|]. split; [right; reflexivity|].
        destruct (x_tokenize x (cf_lang cf) input) as [|t r] eqn:Et; [discriminate|]. rewrite <- Et in *.
        assert (Ne : x_tokenize x (cf_lang cf) input <> []) by (rewrite Et; discriminate).
        destruct (transform_rebuild x st _ Ne) as [E _]. rewrite E in Hs. injection Hs as <-.
        unfold normalized_text. rewrite map_map. reflexivity.
      - intros f z Hf Hz. assert (B := Sound f z Hf Hz). lia.
    Qed.

    Lemma filler_quotes slots : crf_get_slots x cf false input = Ok slots ->
      forall s, In s slots -> is_value s = substring input (is_range s).
    Proof.
      intros H. assert (Tk := Tok (cf_lang cf) input). unfold crf_get_slots in H.
      assert (Tg := cf_tagger_ok).
      destruct (cf_tagger cf) as [tg|]; [|injection H as <-; intros s []].
      destruct (cf_processor cf) as [pr|]; [|injection H as <-; intros s []]. destruct (Tg tg eq_refl) as [Hok _].
      destruct (x_tokenize x (cf_lang cf) input) as [|t r] eqn:Etok; [injection H as <-; intros s []|].
      set (toks := t :: r) in *. bind_inv H. bind_inv H. bind_inv H.
      assert (Hlen : length a1 = length toks).
      { rewrite (mapM_ok_length _ _ _ E1), (Hok _ _ E0). apply compute_features_length in E. exact E. }
      destruct (slots_slices _ _ _ _ _ _ Tk (Nat.eq_le_incl _ _ Hlen) H) as (segs & W & _ & HF).
      intros s Hs. destruct (Forall2_In_r _ _ _ _ HF Hs) as (g & _ & _ & _ & T3 & _). exact T3.
    Qed.
  End Filler.

  Lemma prob_safe o ic fillers :
    (forall wl, ic_get_intent ic input wl <> Panic) -> ic_get_intents ic input <> Panic ->
    (forall l, ic_get_intents ic input = Ok l -> numbers l) ->
    (forall i sf, In (i, sf) fillers -> sf input <> Panic /\
       forall slots, sf input = Ok slots -> forall s, In s slots -> is_value s = substring input (is_range s)) ->
    safe_parser input (prob_intent_parser (prob_new o ic fillers)).
  Proof.
    intros C1 C2 C3 G.
    assert (Gs : forall i sf, sget i (pp_fillers (prob_new o ic fillers)) = Some sf -> sf input <> Panic /\
      forall slots, sf input = Ok slots -> forall s, In s slots -> is_value s = substring input (is_range s)).
    { intros i sf H. rewrite prob_fillers in H. apply own_filler_spec in H as (b & a & -> & _).
      apply G with (i := i). apply in_or_app. right. left. reflexivity. }
    split; [|split; [|split; [|split; [|split]]]]; cbn [prob_intent_parser ip_parse ip_get_intents ip_get_slots].
    - intros f. unfold prob_parse. apply safe_bind; [apply C1|]. intros r _. apply safe_bind; [|discriminate].
      destruct (ir_name r) as [i|]; [|discriminate]. destruct (sget i _) as [sf|] eqn:Es; [|discriminate]. cbn [ok_or bind].
      apply (Gs i sf Es).
    - exact C2.
    - exact C3.
    - intros i. unfold prob_get_slots. destruct (sget i _) as [sf|] eqn:Es; [|discriminate]. cbn [ok_or bind]. apply (Gs i sf Es).
    - intros f r H. unfold prob_parse in H. bind_inv H. bind_inv H. inv H. cbn [pr_slots].
      destruct (ir_name a) as [i|]; [|inv E0; intros s []]. destruct (sget i _) as [sf|] eqn:Es; [|discriminate].
      cbn [ok_or bind] in E0. exact (proj2 (Gs i sf Es) _ E0).
    - intros i l H. unfold prob_get_slots in H. destruct (sget i _) as [sf|] eqn:Es; [|discriminate].
      cbn [ok_or bind] in H. exact (proj2 (Gs i sf Es) _ H).
  Qed.
End Analysis.

(** ** Loaded engines *)
Lemma vec_In {A} (d : decoder A) v l a : required (d_vec d) v = Ok l -> In a l -> exists j, d j = Ok a.
Proof.
  destruct v as [j| |]; try discriminate. cbn [required]. destruct j; try discriminate. cbn [d_vec]. intros H Ha.
  destruct (P_Rules.mapM_In _ _ _ _ H Ha) as (j & _ & Hj). eauto.
Qed.
Lemma offsets_i32 o j m : d_filler o j = Ok m -> forall f z, In f (sm_factories m) -> In z (ff_offsets f) -> is_i32 z.
Proof.
  unfold d_filler. intros H. bind_inv H. destruct a as [|a1 [|a2 [|a3 [|a4 [|a5 [|]]]]]]; try discriminate.
  do 5 bind_inv H. inv H. cbn [sm_factories]. clear - E4. destruct a5 as [v| |]; try discriminate. cbn [required] in E4.
  unfold d_filler_config in E4. bind_inv E4. destruct a as [|a1 [|a2 [|]]]; try discriminate. do 2 bind_inv E4. inv E4. cbn [snd].
  intros f z Hf Hz. destruct (vec_In _ _ _ _ E1 Hf) as (jf & Hj). unfold d_factory in Hj. bind_inv Hj.
  destruct a3 as [|b1 [|b2 [|b3 [|]]]]; try discriminate. do 3 bind_inv Hj. inv Hj. cbn [ff_offsets] in Hz.
  destruct (vec_In _ _ _ _ E4 Hz) as (jz & Hz'). unfold d_i32, d_int in Hz'. destruct jz; try discriminate.
  destruct ((_ <=? _) && (_ <? _))%Z eqn:B; [|discriminate]. inv Hz'. apply andb_prop in B as [B1 B2].
  apply Z.leb_le in B1. apply Z.ltb_lt in B2. split; assumption.
Qed.

Section Loaded.
  Context (x : Ext) (shape : str -> str) (ngrams : list str -> nat -> list str) (mx : Math) (L : Loader)
          (fo : path -> orders) (uo : path -> nat -> HashOrder) (f : fs)
          (Ext_ok : externals_behave x mx L f) (Files : sound_files L fo f).

  Section Units.
    Context (res : Resources) (input : str) (Len : (Z.of_nat (length input) < 2 ^ 29)%Z)
      (HB : forall s f u n, rs_builtin res s f u n <> Panic)
      (HC : forall s, derived_text x res input s -> forall f n, rs_custom res s f n <> Panic).

    Lemma loaded_featurizer p fz o1 o2 : load_featurizer x L fo f p res = Ok fz ->
      featurize x ngrams o1 o2 fz input <> Panic /\
      forall fs, featurize x ngrams o1 o2 fz input = Ok fs -> forall c, In c fs -> within four c.
    Proof.
      unfold load_featurizer. intros H. bind_inv H. bind_inv H. bind_inv H. inv H.
      apply (featurize_safe x res input HB HC (ld_lang L)); cbn [fz_tfidf fz_cooc].
      - unfold load_tfidf in E0. bind_inv E0. apply read_json_ok in E2 as (j & J & D).
        exists a2. split; [exact E0|]. exact (proj1 (Files _ j J) _ D).
      - intros cv ->. destruct (snd a) as [name|]; [|discriminate]. bind_inv E1. inv E1. unfold load_cooc in E2. bind_inv E2.
        apply read_json_ok in E1 as (j & J & D). exists a1. split; [exact E2|]. exact (proj1 (proj2 (Files _ j J)) _ D).
    Qed.

    Lemma loaded_classifier p c : load_classifier x ngrams L fo uo f p res = Ok c ->
      (forall t, cl_featurizer c = Some t -> t input <> Panic /\ forall fs, t input = Ok fs -> forall v, In v fs -> within four v) /\
      (forall lr, cl_logreg c = Some lr -> bounded_logreg lr).
    Proof.
      unfold load_classifier. intros H. bind_inv H. bind_inv H. bind_inv H. inv H. cbn [cl_featurizer cl_logreg].
      apply read_json_ok in E as (j & J & D). destruct (Files _ j J) as (_ & _ & _ & _ & _ & Sc). specialize (Sc _ D). split.
      - intros t ->. destruct (clm_featurizer a) as [name|]; [|discriminate]. bind_inv E0. inv E0.
        apply (loaded_featurizer _ _ _ _ E).
      - intros lr ->. destruct (clm_intercept a) as [ic|] eqn:Ei; [|discriminate].
        destruct (clm_coeffs a) as [co|] eqn:Ec; [|discriminate]. bind_inv E1. inv E1.
        destruct (Sc ic co Ei Ec) as [S1 S2]. eapply logreg_bounded; eassumption.
    Qed.

    Lemma loaded_parser p u ip : build_intent_parser x shape ngrams mx L fo uo f p u res = Ok ip -> safe_parser input ip.
    Proof.
      destruct Ext_ok as (Tok & Ex & Ce & Fit & _ & _ & Tg).
      intros B. destruct u; cbn [build_intent_parser] in B; try discriminate; bind_inv B; inv B.
      - unfold load_deterministic in E. bind_inv E. apply read_json_ok in E0 as (j & J & D).
        eapply det_safe; [exact Tok|exact HB|exact HC|exact E|exact Fit|].
        exact (proj1 (proj2 (proj2 (proj2 (Files _ j J)))) _ D).
      - unfold load_lookup in E. bind_inv E. apply read_json_ok in E0 as (j & J & D).
        eapply lookup_safe; [exact HB|exact HC|exact E|]. exact (proj1 (proj2 (proj2 (Files _ j J))) _ D).
      - unfold load_probabilistic in E. bind_inv E. bind_inv E. bind_inv E. inv E.
        unfold build_intent_classifier in E1. bind_inv E1. destruct a; try discriminate. bind_inv E1. inv E1.
        destruct (loaded_classifier _ _ E3) as [F1 F2]. apply prob_safe; cbn [logreg_classifier ic_get_intent ic_get_intents].
        + intros wl. eapply get_intent_safe; eassumption.
        + eapply ranking_safe; eassumption.
        + eapply ranking_safe; eassumption.
        + intros i sf Hin. destruct (P_Rules.mapM_In _ _ _ _ E2 Hin) as ([i' d] & _ & Hd). bind_inv Hd. inv Hd.
          unfold build_slot_filler in E1. bind_inv E1. destruct a1; try discriminate. bind_inv E1. inv E1.
          unfold load_crf in E5. bind_inv E5. apply read_json_ok in E1 as (j & J & D).
          destruct (Files _ j J) as (_ & _ & _ & _ & Sf & _). specialize (Sf _ D).
          split.
          * eapply filler_safe; [exact Tok|exact HB|exact HC|exact E5|exact Sf|exact (offsets_i32 _ _ _ D)| |exact Len].
            intros name t; apply Tg.
          * eapply filler_quotes; [exact Tok|exact E5|]. intros name t; apply Tg.
    Qed.
  End Units.

  Lemma custom_safe l d gaz s kinds n : ld_gazetteer L f d = Ok gaz -> (Z.of_nat (length (x_lower x s)) < 2 ^ 29)%Z ->
    custom_entities x l gaz s kinds n <> Panic.
  Proof.
    intros G Ls. destruct Ext_ok as (Tok & _ & _ & _ & _ & Gz & _). unfold custom_entities.
    destruct (Gz d gaz G (join [space] (map tk_value (x_tokenize x l (x_lower x s)))) kinds n) as [P W].
    destruct (gaz (join [space] (map tk_value (x_tokenize x l (x_lower x s)))) kinds n) as [es|e|] eqn:Eg; [| |contradiction].
    - destruct (custom_total x l gaz (x_lower x s) kinds n es (Tok l _) Ls Eg) as (out & ->); [|discriminate].
      intros e He. exact (W es e eq_refl He).
    - unfold custom_extract. rewrite Eg. discriminate.
  Qed.

  Lemma loaded_calls p en input : from_path x shape ngrams mx L fo uo f p = Ok en -> texts_below_limit x (en_resources en) input ->
    (forall s f u n, rs_builtin (en_resources en) s f u n <> Panic) /\
    (forall s, derived_text x (en_resources en) input s -> forall f n, rs_custom (en_resources en) s f n <> Panic) /\
    forall ip, In ip (en_parsers en) -> safe_parser input ip.
  Proof.
    intros H [Len Lim]. destruct (loaded_custom _ _ _ _ _ _ _ _ _ _ H) as (l & d & gaz & G & Cu).
    assert (HC : forall s, derived_text x (en_resources en) input s -> forall f n, rs_custom (en_resources en) s f n <> Panic).
    { intros s Hs k n. rewrite Cu. eapply custom_safe; [exact G|]. apply Lim. exact Hs. }
    assert (HB : forall s f u n, rs_builtin (en_resources en) s f u n <> Panic).
    { destruct Ext_ok as (_ & _ & _ & _ & Bu & _). clear - H Bu. unfold from_path in H. bind_inv H. bind_inv H. bind_inv H. inv H.
      cbn [en_resources]. unfold resources_of in E0. bind_inv E0. unfold load_shared_resources in E0. do 7 bind_inv E0. inv E0.
      cbn [rs_builtin]. unfold load_builtin in E8. bind_inv E8. inv E8. intros s k u n. eapply Bu. eassumption. }
    split; [exact HB|]. split; [exact HC|].
    unfold from_path in H. bind_inv H. bind_inv H. bind_inv H. inv H. cbn [en_parsers en_resources] in *.
    intros ip Hip. unfold load_intent_parsers in E1. destruct (P_Rules.mapM_In _ _ _ _ E1 Hip) as (name & _ & B). bind_inv B.
    exact (loaded_parser a0 input Len HB HC _ _ _ B).
  Qed.

  Lemma loaded_never_panics p en input : from_path x shape ngrams mx L fo uo f p = Ok en -> texts_below_limit x (en_resources en) input ->
    (forall o1 o2 w b n salts, parse_with_alternatives x o1 o2 en input w b n salts <> Panic) /\
    (forall o, get_intents o en input <> Panic) /\
    (forall i salts, get_slots_with_alternatives x en input i salts <> Panic) /\
    (forall i name salts, extract_slot_with_alternatives x en input i name salts <> Panic).
  Proof.
    intros H Lim. destruct (loaded_calls _ _ _ H Lim) as (HB & HC & Hp). repeat split; intros.
    - eapply parse_safe; eauto.
    - eapply get_intents_safe; eauto.
    - eapply get_slots_safe; eauto.
    - eapply extract_safe; eauto.
  Qed.
End Loaded.
