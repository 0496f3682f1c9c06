(** What the rule based parsers recognise. *)
From Coq Require Import String List NArith ZArith Bool Arith Lia.
From Verif Require Import Base F32 M_Types M_Utils M_Engine M_Det M_Lookup S_Base S_Utils S_Engine S_Det S_Rank S_Rules
  P_Base P_F32 P_Engine P_Utils P_Det P_Rank P_Rules P_Weight S_Match.
Import ListNotations.

Lemma Forall2_length' {A B} (R : A -> B -> Prop) l k : Forall2 R l k -> length l = length k.
Proof. intros F. induction F; simpl; auto. Qed.
Lemma NoDup_map_inj {A B} (f : A -> B) l : NoDup (map f l) -> forall a b, In a l -> In b l -> f a = f b -> a = b.
Proof.
  induction l as [|c l IH]; intros N a b Ha Hb E; [contradiction|]. cbn [map] in N. inversion N; subst.
  destruct Ha as [->|Ha], Hb as [->|Hb]; auto.
  - exfalso. apply H1. rewrite E. apply in_map. exact Hb.
  - exfalso. apply H1. rewrite <- E. apply in_map. exact Ha.
Qed.

(** ** Texts *)
Lemma placeholder_eq x e : get_entity_placeholder x e = placeholder x e.
Proof.
  unfold get_entity_placeholder, placeholder. assert (J : forall l : list str, join [] l = concat l).
  { induction l as [|a [|b l] IH]; auto; [symmetry; apply app_nil_r|].
    change (join [] (a :: b :: l)) with (a ++ [] ++ join [] (b :: l)). rewrite IH. reflexivity. }
  rewrite J. reflexivity.
Qed.
Lemma substring_to_end (text : str) cur : substring text (cur, length text) = suffix_from text cur.
Proof.
  unfold substring, suffix_from. simpl. apply firstn_all2. rewrite skipn_length. unfold rlen. simpl. lia.
Qed.
Lemma replace_loop_eq x text es : forall cur, replace_loop x text cur es =
  apply_edits text cur (map (fun e => (me_range e, placeholder x (me_name e))) es).
Proof.
  induction es as [|e es IH]; intros cur; cbn [replace_loop apply_edits map]; [symmetry; apply substring_to_end|].
  rewrite IH, placeholder_eq. reflexivity.
Qed.
Lemma with_placeholders_eq x text es : replace_entities_with_placeholders x text es = with_placeholders x text es.
Proof.
  unfold with_placeholders. destruct es as [|e es]; [|apply replace_loop_eq].
  simpl. rewrite substring_to_end. reflexivity.
Qed.
Lemma spaced_eq l : join [space] l = spaced l.
Proof.
  induction l as [|a [|b l] IH]; auto. change (join [space] (a :: b :: l)) with (a ++ [space] ++ join [space] (b :: l)).
  rewrite IH. reflexivity.
Qed.
Lemma words_kept_eq x (ign : str -> Prop) stop : (forall w, In w stop <-> ign w) -> forall l m,
  words_kept x ign l m <-> m = filter (fun t => negb (smem (x_normalize x t) stop)) l.
Proof.
  intros S l. induction l as [|w l IH]; intros m; simpl.
  - split; [intros H; inversion H; auto|intros ->; constructor].
  - destruct (smem (x_normalize x w) stop) eqn:E; cbn [negb].
    + apply smem_spec, S in E. rewrite <- IH. split; intros H; [inversion H; subst; [contradiction|auto]|apply wk_drop; auto].
    + apply smem_false in E. rewrite S in E. split.
      * intros H. inversion H; subst; [|contradiction]. f_equal. apply IH. auto.
      * intros ->. apply wk_keep; auto. apply IH. reflexivity.
Qed.
Lemma learnt_form_eq x (lp : LookupParser) ign j :
  (forall w, In w (stop_words_of (lp_stop lp) (lp_specific_stop lp) j) <-> ign w) -> forall s t,
  learnt_form x (lp_lang lp) ign s t <-> t = lookup_preprocess x lp s j.
Proof.
  intros S s t. unfold learnt_form, lookup_preprocess. rewrite spaced_eq. split.
  - intros (kept & K & ->). apply (words_kept_eq _ _ _ S) in K. subst kept. reflexivity.
  - intros ->. eexists. split; [apply (words_kept_eq _ _ _ S); reflexivity|reflexivity].
Qed.

(** ** Stop words of the lookup parser *)
Lemma ignored_specific (o : HashOrder) (ignore : bool) (res : Resources) whitelist intent w : NoDup (map fst whitelist) ->
  let stop := if ignore then rs_stop_words res else [] in
  In w (stop_words_of stop (reorder o (specific_stop_words stop whitelist)) intent) <-> ignored ignore res whitelist intent w.
Proof.
  intros ND stop. unfold ignored.
  assert (Hs : In w stop <-> ignore = true /\ In w (rs_stop_words res)).
  { unfold stop. destruct ignore; simpl; intuition discriminate. }
  rewrite <- (and_assoc (ignore = true)), <- Hs. unfold stop_words_of.
  assert (ND' : NoDup (hkeys (specific_stop_words stop whitelist))).
  { unfold hkeys, specific_stop_words. rewrite map_map. simpl. exact ND. }
  assert (Eg : sget intent (reorder o (specific_stop_words stop whitelist)) = sget intent (specific_stop_words stop whitelist)).
  { symmetry. apply (hget_perm _ str_eqb_spec); auto. apply reorder_perm. }
  rewrite Eg. clear Eg. destruct (sget intent (specific_stop_words _ _)) as [ws|] eqn:G.
  - apply sget_In in G. unfold specific_stop_words in G. apply in_map_iff in G as ([i ws0] & Eq & Hi).
    simpl in Eq. inv Eq. rewrite filter_In, negb_true_iff, smem_false. split.
    + intros [H1 H2]. split; auto. intros ws' H3 H4.
      assert (ws' = ws0); [|congruence].
      assert (A := sget_NoDup intent ws' _ ND H3). assert (B := sget_NoDup intent ws0 _ ND Hi). congruence.
    + intros [H1 H2]. split; auto.
  - apply sget_None in G. split; [|tauto]. intros H. split; auto. intros ws H1 _.
    apply G. unfold hkeys, specific_stop_words. rewrite map_map. simpl. apply (in_map fst) in H1. exact H1.
Qed.

(** ** Entries of the table *)
Lemma at_id_eq {A} (l : list A) id a : index_i32 l id = Ok a <-> at_id l id a.
Proof.
  unfold index_i32, at_id. destruct (id <? 0)%Z eqn:E.
  - apply Z.ltb_lt in E. split; [discriminate|lia].
  - apply Z.ltb_ge in E. unfold index. destruct (nth_error l (Z.to_nat id)); split; try discriminate; try (intros [_ H]; discriminate).
    + intros H. inv H. auto.
    + intros [_ H]. inv H. reflexivity.
Qed.
Lemma allowed_eq f i : match f with Some l => smem i l | None => true end = true <-> allowed f i.
Proof. destruct f; simpl; [apply smem_spec|tauto]. Qed.

Section Lookup.
  Context (x : Ext) (lang_of : str -> option lang) (o : HashOrder) (m : LookupModel) (res : Resources) (lp : LookupParser).
  Hypothesis New : lookup_new lang_of o m res = Ok lp.
  Hypothesis ND : NoDup (map fst (lm_stop_whitelist m)).

  Lemma lookup_fields : lang_of (lm_language m) = Some (lp_lang lp) /\ lp_slots_names lp = lm_slots_names m /\
    lp_intents_names lp = lm_intents_names m /\ lp_map lp = lm_map m /\ lp_scopes lp = lm_scopes m /\ lp_res lp = res.
  Proof. assert (N := New). unfold lookup_new in N. bind_inv N. inv N. simpl. destruct (lang_of (lm_language m)); inv E. auto 10. Qed.
  Lemma lookup_ignored j w : In w (stop_words_of (lp_stop lp) (lp_specific_stop lp) j) <->
    ignored (lm_ignore_stop_words m) res (lm_stop_whitelist m) j w.
  Proof. assert (N := New). unfold lookup_new in N. bind_inv N. inv N. simpl. apply ignored_specific. exact ND. Qed.

  Lemma table_gives_eq input f t es r : lookup_candidate x lp input f (t, es) = Ok (Some r) <->
    exists i slots, r = mkIPR (mkIR (Some i) f1) slots /\ allowed f i /\ table_gives x m input t es i slots.
  Proof.
    destruct lookup_fields as (_ & Sn & In_ & Mp & _). unfold lookup_candidate, table_gives. cbn [fst snd].
    rewrite Mp. destruct (hget Z.eqb (x_hash x t) (lm_map m)) as [[id ids]|]; [|split; [discriminate|intros (i & sl & _ & _ & id & ids & H & _); discriminate]].
    unfold parse_map_output. cbn [fst snd]. rewrite In_, Sn.
    assert (Sl : forall slots, mapM (fun se => let* slot_name := index_i32 (lm_slots_names m) (fst se) in
              Ok (mkIS (substring input (me_range (snd se))) (me_range (snd se)) (me_name (snd se)) slot_name)) (combine ids es) = Ok slots <->
            Forall2 (fun ie s => at_id (lm_slots_names m) (fst ie) (is_slot_name s) /\
                         is_value s = substring input (me_range (snd ie)) /\
                         is_range s = me_range (snd ie) /\ is_entity s = me_name (snd ie)) (combine ids es) slots).
    { intros slots. split.
      - intros H. apply mapM_ok_Forall2 in H. induction H; constructor; auto. bind_inv H. inv H. simpl.
        apply at_id_eq in E. auto.
      - intros F. induction F as [|ie s l k (A & V & R & N) F IH]; auto. cbn [mapM]. apply at_id_eq in A. rewrite A. cbn [bind].
        rewrite IH. cbn [bind]. destruct s. simpl in *. subst. reflexivity. }
    split.
    - intros H. bind_inv H. rename a into i. apply at_id_eq in E.
      destruct (match f with Some l => smem i l | None => true end) eqn:Al; [|discriminate].
      bind_inv H. rename a into slots. inv H. exists i, slots. split; auto. split; [apply allowed_eq; exact Al|].
      exists id, ids. split; auto. split; auto. apply Sl. exact E0.
    - intros (i & slots & -> & Al & id' & ids' & Q & A & F). inv Q. apply at_id_eq in A. rewrite A. cbn [bind].
      apply allowed_eq in Al. rewrite Al. apply Sl in F. rewrite F. reflexivity.
  Qed.

  Lemma group_entities_eq input g es : group_entities x res input g es <-> get_all_entities x lp input (gs_scope g) = Ok es.
  Proof.
    destruct lookup_fields as (_ & _ & _ & _ & _ & Rs). unfold get_all_entities, group_entities. rewrite Rs. split.
    - intros (kinds & all & K & (bes & ces & B & C & ->) & ->).
      assert (Ek : mapM (fun i => ok_or EOther (x_kind_of_identifier x i)) (es_builtin (gs_scope g)) = Ok kinds).
      { clear - K. induction K as [|i k l m H K IH]; auto. cbn [mapM]. rewrite H, IH. reflexivity. }
      rewrite Ek. cbn [bind]. simpl in B, C. rewrite B. cbn [bind]. rewrite C. reflexivity.
    - intros H. bind_inv H. rename a into kinds. bind_inv H. rename a into bes. bind_inv H. rename a into ces. inv H.
      exists kinds, (map matched_of_builtin bes ++ map matched_of_custom ces). split; [|split; auto].
      + apply mapM_ok_Forall2 in E. clear - E. induction E; constructor; auto. destruct (x_kind_of_identifier x x0); inv H. reflexivity.
      + exists bes, ces. auto.
  Qed.

  (** The candidates of a group. *)
  Definition candidate_of (input : str) (f : option (list str)) (g : GroupedScope) (c : str * list MatchedEntity) : Prop :=
    exists j found, In j (gs_intents g) /\ allowed f j /\ group_entities x res input g found /\ subseq (snd c) found /\
      learnt_form x (lp_lang lp) (ignored (lm_ignore_stop_words m) res (lm_stop_whitelist m) j)
        (with_placeholders x input (snd c)) (fst c).

  Lemma form_eq j s t : learnt_form x (lp_lang lp) (ignored (lm_ignore_stop_words m) res (lm_stop_whitelist m) j) s t <->
    t = lookup_preprocess x lp s j.
  Proof. apply learnt_form_eq. intros w. apply lookup_ignored. Qed.

  Lemma allowed_group_In f g j : In j (allowed_group f g) <-> In j g /\ allowed f j.
  Proof. unfold allowed_group. rewrite filter_In, allowed_eq. reflexivity. Qed.

  Lemma group_candidates_eq input f g cs : group_candidates x lp input f g = Ok cs ->
    forall c, In c cs <-> candidate_of input f g c.
  Proof.
    unfold group_candidates. intros H c.
    destruct (allowed_group f (gs_intents g)) as [|i0 is] eqn:G.
    - inv H. split; [contradiction|]. intros (j & found & I & A & _).
      assert (K : In j (allowed_group f (gs_intents g))) by (apply allowed_group_In; auto). rewrite G in K. contradiction.
    - bind_inv H. rename a into all. rewrite <- G in H. clear G i0 is.
      assert (K := f_equal (fun o => match o with Ok l => l | _ => [] end) H). cbv beta iota in K. rewrite <- K. clear H K cs.
      rewrite in_flat_map. unfold candidate_of. split.
      + intros (es & S & C). apply items_combinations_In in S. apply in_flat_map in C as (j & J & C).
        apply allowed_group_In in J as [J A]. exists j, all. split; auto. split; auto.
        split; [apply group_entities_eq; exact E|]. rewrite with_placeholders_eq in C.
        destruct C as [<-|[<-|[]]]; cbn [fst snd].
        * split; [apply subseq_nil_l|]. apply form_eq. rewrite <- with_placeholders_eq. reflexivity.
        * split; auto. apply form_eq. reflexivity.
      + intros (j & found & J & A & Gr & S & F). apply group_entities_eq in Gr. assert (found = all) by congruence. subst found.
        exists (snd c). split; [apply items_combinations_In; exact S|]. apply in_flat_map. exists j.
        split; [apply allowed_group_In; auto|]. right. left. destruct c as [t es]. cbn [fst snd] in *.
        rewrite with_placeholders_eq. f_equal. symmetry. apply form_eq. exact F.
  Qed.

  Lemma candidates_eq input f cands : get_candidates x lp input f = Ok cands ->
    forall c, In c cands <-> exists g, In g (lm_scopes m) /\ candidate_of input f g c.
  Proof.
    destruct lookup_fields as (_ & _ & _ & _ & Sc & _). unfold get_candidates. rewrite Sc. intros H c.
    bind_inv H. rename a into ls. inv H. rewrite (unique_In _ candidate_eqb_spec), in_concat. split.
    - intros (cs & Hcs & Hc). destruct (mapM_In _ _ _ _ E Hcs) as (g & Hg & Eg). exists g. split; auto.
      eapply group_candidates_eq; eauto.
    - intros (g & Hg & C). apply mapM_ok_Forall2 in E. destruct (Forall2_In_l _ _ _ _ E Hg) as (cs & Hcs & Eg).
      exists cs. split; auto. eapply group_candidates_eq; eauto.
  Qed.

  Lemma results_eq input f rs : candidate_results x lp input f = Ok rs ->
    forall r, In r rs <-> exists i slots, r = mkIPR (mkIR (Some i) f1) slots /\ recognised x (lp_lang lp) m res input f i slots.
  Proof.
    unfold candidate_results. intros H r. bind_inv H. rename a into cands. bind_inv H. rename a into opts. inv H.
    unfold recognised, recognised_for. split.
    - intros Hr. apply In_present_inv in Hr. destruct (mapM_In _ _ _ _ E0 Hr) as ([t es] & Hc & Ec).
      apply table_gives_eq in Ec as (i & slots & -> & A & T). exists i, slots. split; auto. split; auto.
      apply (candidates_eq _ _ _ E) in Hc as (g & Hg & j & found & J & Aj & G & S & F). cbn [fst snd] in *.
      exists g, j. split; auto. split; auto. split; auto. exists found, es, t. auto.
    - intros (i & slots & -> & A & g & j & Hg & J & Aj & found & es & t & G & S & F & T).
      assert (Hc : In (t, es) cands).
      { apply (candidates_eq _ _ _ E). exists g. split; auto. exists j, found. cbn [fst snd]. auto. }
      apply mapM_ok_Forall2 in E0. destruct (Forall2_In_l _ _ _ _ E0 Hc) as (op & Ho & Ec).
      assert (Ec' : lookup_candidate x lp input f (t, es) = Ok (Some (mkIPR (mkIR (Some i) f1) slots))).
      { apply table_gives_eq. eauto. }
      assert (op = Some (mkIPR (mkIR (Some i) f1) slots)) by congruence. subst op.
      clear - Ho. induction opts as [|[p|] opts IH]; simpl in *; [contradiction| |].
      + destruct Ho as [H|H]; [left; congruence|right; auto].
      + destruct Ho as [H|H]; [discriminate|auto].
  Qed.

  Lemma recognised_small input f i slots : small_table m -> recognised x (lp_lang lp) m res input f i slots ->
    (Z.of_nat (length slots) < 2 ^ 22)%Z.
  Proof.
    intros Sm (_ & g & j & _ & _ & _ & found & es & t & _ & _ & _ & id & ids & H & _ & F).
    apply (hget_In _ (fun a b => Z.eqb_eq a b)) in H. apply Sm in H.
    assert (L := Forall2_length' _ _ _ F). rewrite combine_length in L. lia.
  Qed.

  Lemma results_countable input f rs : small_table m -> candidate_results x lp input f = Ok rs ->
    forall r, In r rs -> (Z.of_nat (slot_count r) < 2 ^ 22)%Z.
  Proof.
    intros Sm E r Hr. apply (results_eq _ _ _ E) in Hr as (i & slots & -> & R). apply recognised_small in R; auto.
  Qed.

  Lemma matches_exact ord input f ms : small_table m -> lookup_matches x ord lp input f = Ok ms ->
    recognised_matches x (lp_lang lp) m res input f ms.
  Proof.
    intros Sm H. destruct (lookup_matches_spec _ _ _ _ _ _ H) as (rs & E & N & Sub & Best).
    assert (Sz := results_countable _ _ _ Sm E).
    assert (C : countable rs). { intros r Hr. specialize (Sz r Hr). lia. }
    specialize (Best C). split; [exact N|]. split.
    - intros r Hr. destruct (proj1 (results_eq _ _ _ E r) (Sub r Hr)) as (i & slots & Er & R).
      assert (Nr : ir_name (pr_intent r) = Some i) by (rewrite Er; reflexivity).
      exists i. split; auto. split; [rewrite Er; exact R|]. intros slots' R'.
      assert (Hr' : In (mkIPR (mkIR (Some i) f1) slots') rs) by (apply (results_eq _ _ _ E); eauto).
      destruct (Best _ Hr') as (r2 & Hr2 & N2 & L). cbn [pr_intent ir_name] in N2.
      assert (r2 = r). { apply (NoDup_map_inj _ _ N); auto. congruence. } subst r2.
      apply weight_fewest in L; [exact L|apply (Sz _ Hr')|apply (Sz r (Sub r Hr))].
    - intros i slots R. assert (Hr : In (mkIPR (mkIR (Some i) f1) slots) rs) by (apply (results_eq _ _ _ E); eauto).
      destruct (Best _ Hr) as (r2 & Hr2 & N2 & _). eauto.
  Qed.

  Lemma matches_countable ord input f ms : small_table m -> lookup_matches x ord lp input f = Ok ms -> countable ms.
  Proof.
    intros Sm H. destruct (lookup_matches_spec _ _ _ _ _ _ H) as (rs & E & _ & Sub & _).
    intros r Hr. assert (B := results_countable _ _ _ Sm E r (Sub r Hr)). lia.
  Qed.

  Lemma parse_exact ord input f r : small_table m -> lookup_parse x ord lp input f = Ok r ->
    exists ms, recognised_matches x (lp_lang lp) m res input f ms /\ rule_answer ms r.
  Proof.
    intros Sm H. destruct (lookup_matches x ord lp input f) as [ms|e|] eqn:E.
    - exists ms. split; [eapply matches_exact; eauto|].
      destruct (lookup_parse_rule _ _ _ _ _ _ E (matches_countable _ _ _ _ Sm E)) as (r' & Er & R). congruence.
    - unfold lookup_parse, lookup_parse_top in H. rewrite E in H. discriminate.
    - unfold lookup_parse, lookup_parse_top in H. rewrite E in H. discriminate.
  Qed.

  Lemma parse_recognised ord input f r i : small_table m -> lookup_parse x ord lp input f = Ok r ->
    ir_name (pr_intent r) = Some i -> recognised x (lp_lang lp) m res input f i (pr_slots r) /\
    forall slots, recognised x (lp_lang lp) m res input f i slots -> length (pr_slots r) <= length slots.
  Proof.
    intros Sm H N. destruct (parse_exact _ _ _ _ Sm H) as (ms & (_ & Rec & _) & [[-> _]|(k & m0 & Hk & -> & _)]); [discriminate|].
    apply nth_error_In in Hk. destruct (Rec m0 Hk) as (i' & N' & R & L). cbn [scored pr_intent ir_name pr_slots] in *.
    assert (i' = i) by congruence. subst i'. auto.
  Qed.

  Lemma parse_nothing ord input f r : small_table m -> lookup_parse x ord lp input f = Ok r ->
    (forall i slots, ~ recognised x (lp_lang lp) m res input f i slots) -> r = no_intent.
  Proof.
    intros Sm H No. destruct (parse_exact _ _ _ _ Sm H) as (ms & (_ & Rec & _) & R).
    destruct ms as [|m0 ms]; [apply rule_answer_nil; exact R|]. exfalso.
    destruct (Rec m0 (or_introl eq_refl)) as (i & _ & R0 & _). exact (No _ _ R0).
  Qed.

  Lemma parse_certain ord input f r i slots : small_table m -> lookup_parse x ord lp input f = Ok r ->
    recognised x (lp_lang lp) m res input f i slots ->
    (forall j slots', recognised x (lp_lang lp) m res input f j slots' -> j = i) ->
    pr_intent r = mkIR (Some i) f1.
  Proof.
    intros Sm H R One. unfold lookup_parse, lookup_parse_top in H. destruct (lookup_matches x ord lp input f) as [ms|e|] eqn:E; [|discriminate|discriminate].
    destruct (matches_exact _ _ _ _ Sm E) as (N & Rec & All). assert (C := matches_countable _ _ _ _ Sm E).
    destruct (lookup_parse_rule _ _ _ _ _ _ E C) as (r' & Er & Ra).
    assert (r' = r). { unfold lookup_parse, lookup_parse_top in Er. rewrite E in Er. congruence. } subst r'.
    assert (Ni : forall m0, In m0 ms -> ir_name (pr_intent m0) = Some i).
    { intros m0 Hm. destruct (Rec m0 Hm) as (j & Nj & Rj & _). rewrite (One _ _ Rj) in Nj. exact Nj. }
    destruct (All _ _ R) as (m0 & Hm & _).
    destruct ms as [|a [|b ms]]; [contradiction| |].
    - apply rule_answer_single in Ra; auto. subst r. rewrite (Ni a) by (left; reflexivity). reflexivity.
    - exfalso. assert (Ha := Ni a (or_introl eq_refl)). assert (Hb := Ni b (or_intror (or_introl eq_refl))).
      cbn [map] in N. inversion N; subst. apply H2. left. congruence.
  Qed.

  Lemma get_slots_exact ord input i slots : small_table m -> lookup_get_slots x ord lp input i = Ok slots ->
    (slots = [] /\ forall s, ~ recognised x (lp_lang lp) m res input (Some [i]) i s) \/
    (recognised x (lp_lang lp) m res input (Some [i]) i slots /\
     forall s, recognised x (lp_lang lp) m res input (Some [i]) i s -> length slots <= length s).
  Proof.
    intros Sm H. unfold lookup_get_slots in H. destruct (smem i (lp_intents_names lp)); [|discriminate].
    bind_inv H. rename a into r. inv H.
    destruct (ir_name (pr_intent r)) as [j|] eqn:N.
    - right. assert (j = i).
      { destruct (parse_recognised _ _ _ _ _ Sm E N) as (([A|[]] & _) & _). auto. } subst j.
      exact (parse_recognised _ _ _ _ _ Sm E N).
    - left. assert (r = no_intent) by (eapply lookup_parse_none; eauto). subst r. split; auto. intros s R.
      assert (P := parse_certain _ _ _ _ _ _ Sm E R). assert (Q : pr_intent no_intent = mkIR (Some i) f1).
      { apply P. intros j s' ([A|[]] & _). auto. }
      apply (f_equal ir_name) in Q. discriminate.
  Qed.

  Lemma candidates_ok input f : entities_answered x m res input f -> exists cands, get_candidates x lp input f = Ok cands.
  Proof.
    intros A. destruct lookup_fields as (_ & _ & _ & _ & Sc & _). unfold get_candidates. rewrite Sc.
    assert (O : exists ls, mapM (group_candidates x lp input f) (lm_scopes m) = Ok ls).
    { unfold entities_answered in A. revert A. generalize (lm_scopes m). clear - New. intros gs. induction gs as [|g gs IH]; intros A; [eexists; reflexivity|].
      destruct IH as (ls & El). { intros g' j Hg. apply A. right. exact Hg. }
      cbn [mapM]. rewrite El. unfold group_candidates.
      destruct (allowed_group f (gs_intents g)) as [|j0 js] eqn:G; [eexists; reflexivity|].
      assert (J : In j0 (allowed_group f (gs_intents g))) by (rewrite G; left; reflexivity).
      apply allowed_group_In in J as [J Aj]. destruct (A g j0 (or_introl eq_refl) J Aj) as (es & Ge).
      apply group_entities_eq in Ge. rewrite Ge. eexists. reflexivity. }
    destruct O as (ls & ->). eexists. reflexivity.
  Qed.

  Lemma parse_answers ord input f : entities_answered x m res input f -> table_ok lp ->
    exists r, lookup_parse x ord lp input f = Ok r.
  Proof. intros A T. destruct (candidates_ok _ _ A) as (cands & E). eapply lookup_no_panic; eauto. Qed.
End Lookup.
