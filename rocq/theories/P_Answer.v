(** Proofs about the answers of loaded engines. *)
From Coq Require Import String List NArith ZArith Bool Arith Lia Sorted.
From Verif Require Import Base F32 M_Types M_Utils M_Engine M_Det M_Lookup M_Prob M_Crf M_Features M_Filler M_Cache
  M_Fs M_Json M_Load S_Base S_Utils S_Det S_Engine S_Rules S_Crf S_Filler S_Prob S_Cache S_Load S_Answer
  P_Base P_Engine P_Utils P_Det P_Rules P_Prob P_Crf P_Filler P_Features P_Cache P_Custom P_Load.
Import ListNotations.
Local Open Scope nat_scope.

(** Slots found by a parser: they quote the text, in order, without overlap. *)
Definition good_slots (input : str) (l : list InternalSlot) : Prop :=
  (forall s, In s l -> is_value s = substring input (is_range s)) /\ ordered_disjoint (map is_range l).
Definition good_parser (input : str) (p : IntentParser) : Prop :=
  (forall f r, ip_parse p input f = Ok r -> good_slots input (pr_slots r)) /\
  (forall i l, ip_get_slots p input i = Ok l -> good_slots input l).

Lemma good_nil input : good_slots input [].
Proof. split; [intros s []|]. intros i j a b _ Ha. destruct i; discriminate. Qed.

Lemma det_good x ord dp input : good_parser input (det_intent_parser x ord dp).
Proof.
  assert (P : forall f r, det_parse x ord dp input f = Ok r -> good_slots input (pr_slots r)).
  { intros f r H. destruct (det_slots_declared _ _ _ _ _ _ H) as [O D]. split; [|exact O].
    intros s Hs. destruct (D s Hs) as (i & _ & V & _). exact V. }
  split; [exact P|]. cbn [det_intent_parser ip_get_slots]. intros i l H. unfold det_get_slots in H.
  destruct (smem _ _); [|discriminate]. bind_inv H. inv H. eapply P; exact E.
Qed.

Lemma lookup_good x ord lp input : good_parser input (lookup_intent_parser x ord lp).
Proof.
  assert (P : forall f r, lookup_parse x ord lp input f = Ok r -> good_slots input (pr_slots r)).
  { intros f r H. destruct (lookup_slots_spec _ _ _ _ _ _ H) as [O D]. split; [|exact O].
    intros s Hs. apply (D s Hs). }
  split; [exact P|]. cbn [lookup_intent_parser ip_get_slots]. intros i l H. unfold lookup_get_slots in H.
  destruct (smem _ _); [|discriminate]. bind_inv H. inv H. eapply P; exact E.
Qed.

Lemma prob_good o ic fillers input :
  (forall i sf slots, In (i, sf) fillers -> sf input = Ok slots -> good_slots input slots) ->
  good_parser input (prob_intent_parser (prob_new o ic fillers)).
Proof.
  intros G.
  assert (Gs : forall i sf slots, sget i (pp_fillers (prob_new o ic fillers)) = Some sf -> sf input = Ok slots -> good_slots input slots).
  { intros i sf slots H. rewrite prob_fillers in H. apply own_filler_spec in H as (b & a & -> & _).
    apply G with (i := i). apply in_or_app. right. left. reflexivity. }
  split; cbn [prob_intent_parser ip_parse ip_get_slots].
  - intros f r H. unfold prob_parse in H. bind_inv H. bind_inv H. inv H. cbn [pr_slots].
    destruct (ir_name a) as [i|]; [|inv E0; apply good_nil]. bind_inv E0.
    destruct (sget i _) as [sf|] eqn:Es; [|discriminate]. inv E1. eapply Gs; eassumption.
  - intros i l H. unfold prob_get_slots in H. bind_inv H.
    destruct (sget i _) as [sf|] eqn:Es; [|discriminate]. inv E. eapply Gs; eassumption.
Qed.

(** Resolution keeps quotes and order. *)
Lemma resolve_good x en input slots alts out : good_slots input slots ->
  resolve_slots x en input slots alts = Ok out ->
  (forall s, In s out -> quotes input s) /\ ordered_disjoint (map sl_range out).
Proof.
  intros [Q O] H. apply resolve_slots_subseq in H as (kept & S & F). split.
  - intros s Hs. destruct (Forall2_In_r _ _ _ _ F Hs) as (i & Hi & R1 & R2 & _). unfold quotes. rewrite R1, R2.
    apply Q. eapply subseq_In; eassumption.
  - replace (map sl_range out) with (map is_range kept).
    + unfold ordered_disjoint in *. apply (sorted_nth (fun a b => rstart a <= rstart b /\ ~ overlaps a b)).
      eapply subseq_sorted; [apply subseq_map; exact S|].
      clear - O. revert O. generalize (map is_range slots). intros l O. induction l as [|r l IH]; constructor.
      * apply IH. intros i j a b Hij Ha Hb. apply (O (S i) (S j)); [lia|exact Ha|exact Hb].
      * apply Forall_forall. intros b Hb. apply In_nth_error in Hb as [j Hj]. apply (O 0 (S j)); [lia|reflexivity|exact Hj].
    + clear - F. induction F as [|i s l m R F IH]; [reflexivity|]. cbn [map]. rewrite IH. f_equal. symmetry. apply R.
Qed.

Section Engine.
  Context (x : Ext) (en : Engine) (input : str) (G : forall p, In p (en_parsers en) -> good_parser input p).

  Definition good_answer (out : list Slot) : Prop :=
    (forall s, In s out -> quotes input s) /\ ordered_disjoint (map sl_range out).
  Lemma good_answer_nil : good_answer [].
  Proof. split; [intros s []|]. intros i j a b _ Ha. destruct i; discriminate. Qed.

  Lemma parse_loop_good wl salts : forall ps sc res, (forall p, In p ps -> In p (en_parsers en)) ->
    parse_loop x en input wl salts sc ps = Ok res -> good_answer (ps_slots res) /\ ps_alternatives res = [].
  Proof.
    induction ps as [|p ps IH]; intros sc res Sub H; cbn [parse_loop] in H.
    - inv H. split; [apply good_answer_nil|reflexivity].
    - bind_inv H. destruct (ir_name (pr_intent a)).
      + bind_inv H. inv H. cbn [ps_slots ps_alternatives]. split; [|reflexivity].
        eapply resolve_good; [|exact E0]. eapply (proj1 (G p (Sub p (or_introl eq_refl)))); exact E.
      + eapply IH; [|exact H]. intros q Hq. apply Sub. right. exact Hq.
  Qed.

  Lemma slots_loop_good i salts : forall ps out, (forall p, In p ps -> In p (en_parsers en)) ->
    get_slots_loop x en input i salts ps = Ok out -> good_answer out.
  Proof.
    induction ps as [|p ps IH]; intros out Sub H; cbn [get_slots_loop] in H.
    - inv H. apply good_answer_nil.
    - bind_inv H. destruct a as [|s l] eqn:Ea.
      + eapply IH; [|exact H]. intros q Hq. apply Sub. right. exact Hq.
      + rewrite <- Ea in *. eapply resolve_good; [|exact H]. eapply (proj2 (G p (Sub p (or_introl eq_refl)))); exact E.
  Qed.

  Lemma parse_good o1 o2 w b n salts res slots :
    parse_with_alternatives x o1 o2 en input w b n salts = Ok res -> answered_slots res slots -> good_answer slots.
  Proof.
    intros H A. unfold parse_with_alternatives in H. bind_inv H. bind_inv H.
    destruct (parse_loop_good _ _ _ _ _ (fun p Hp => Hp) E0) as [Gm Na].
    destruct (n =? 0).
    - inv H. destruct A as [->|(al & Ha & ->)]; [exact Gm|]. rewrite Na in Ha. destruct Ha.
    - bind_inv H. bind_inv H. inv H. destruct A as [->|(al & Ha & ->)]; [exact Gm|]. cbn [ps_alternatives] in Ha.
      destruct (P_Rules.mapM_In _ _ _ _ E2 Ha) as (r & _ & Er). unfold alternative_of in Er. bind_inv Er. inv Er.
      cbn [al_slots]. destruct (ir_name r); [|inv E3; apply good_answer_nil].
      eapply slots_loop_good; [|exact E3]. intros p Hp. exact Hp.
  Qed.
End Engine.

Section Loaded.
  Context (x : Ext) (shape : str -> str) (ngrams : list str -> nat -> list str) (mx : Math) (L : Loader)
          (fo : path -> orders) (uo : path -> nat -> HashOrder).

  Lemma loaded_good f p en input : tokenizer_ok x -> taggers_trained x shape L fo f ->
    from_path x shape ngrams mx L fo uo f p = Ok en -> forall ip, In ip (en_parsers en) -> good_parser input ip.
  Proof.
    intros T C H. unfold from_path in H. bind_inv H. bind_inv H. bind_inv H. inv H. cbn [en_parsers].
    unfold load_intent_parsers in E1. intros ip Hip. destruct (P_Rules.mapM_In _ _ _ _ E1 Hip) as (name & _ & B).
    bind_inv B. destruct a2; cbn [build_intent_parser] in B; try discriminate; bind_inv B; inv B.
    - apply det_good.
    - apply lookup_good.
    - unfold load_probabilistic in E3. bind_inv E3. bind_inv E3. bind_inv E3. inv E3. apply prob_good.
      intros i sf slots Hin Hs. destruct (P_Rules.mapM_In _ _ _ _ E6 Hin) as ([i' d] & _ & Hd).
      bind_inv Hd. inv Hd. unfold build_slot_filler in E3. bind_inv E3. destruct a2; try discriminate.
      bind_inv E3. inv E3.
      destruct (filler_slots x a2 input slots) as [F1 F2]; [apply T| |exact Hs|].
      + intros tg Htg. eapply C; eassumption.
      + split; [|exact F2]. intros s Is. apply (F1 s Is).
  Qed.

  Lemma loaded_answers_quote o1 o2 f p en input w b n salts res slots :
    tokenizer_ok x -> taggers_trained x shape L fo f -> from_path x shape ngrams mx L fo uo f p = Ok en ->
    parse_with_alternatives x o1 o2 en input w b n salts = Ok res -> answered_slots res slots ->
    (forall s, In s slots -> quotes input s) /\ ordered_disjoint (map sl_range slots).
  Proof. intros T C H. apply parse_good. eapply loaded_good; eassumption. Qed.

  Lemma loaded_slots_quote f p en input i salts slots :
    tokenizer_ok x -> taggers_trained x shape L fo f -> from_path x shape ngrams mx L fo uo f p = Ok en ->
    get_slots_with_alternatives x en input i salts = Ok slots ->
    (forall s, In s slots -> quotes input s) /\ ordered_disjoint (map sl_range slots).
  Proof. intros T C H K. eapply slots_loop_good; [eapply loaded_good; eassumption| |exact K]. auto. Qed.
End Loaded.

(** ** Texts that are analysed as they are *)
Lemma shifts_zero toks : forall (first : bool) e, laid_out toks ->
  (forall t, In t toks -> (Z.of_nat (rend (tk_char_range t)) < 2 ^ 30)%Z) ->
  (forall t, nth_error toks 0 = Some t -> rstart (tk_char_range t) = e + if first then 0 else 1) ->
  (forall i a b, nth_error toks i = Some a -> nth_error toks (S i) = Some b ->
     rstart (tk_char_range b) = rend (tk_char_range a) + 1) ->
  Forall (fun z : Z => z = 0%Z) (char_shifts_from first (Z.of_nat e) 0 toks).
Proof.
  induction toks as [|t toks IH]; intros first e Hl Hb H0 Hg; [constructor|]. cbn [char_shifts_from].
  pose proof (Hb t (or_introl eq_refl)) as B. pose proof (H0 t eq_refl) as S0.
  pose proof (proj1 Hl t (or_introl eq_refl)) as [T1 _].
  assert (Z0 : as_i32 (0 - (as_i32 (Z.of_nat (rstart (tk_char_range t)) - Z.of_nat e) - (if first then 0 else 1)))%Z = 0%Z).
  { rewrite (as_i32_small (Z.of_nat _ - Z.of_nat e)%Z) by (destruct first; lia). rewrite as_i32_small by (destruct first; lia).
    destruct first; lia. }
  rewrite Z0. apply Forall_app. split.
  - apply Forall_forall. intros z Hz. apply repeat_spec in Hz. exact Hz.
  - rewrite (as_i32_small (Z.of_nat (rend _))) by lia. apply IH.
    + eapply laid_out_tail; exact Hl.
    + intros u Hu. apply Hb. right; exact Hu.
    + intros u Hu. rewrite (Hg 0 t u eq_refl Hu). reflexivity.
    + intros i a b Ha Hb'. apply (Hg (S i) a b); assumption.
Qed.

Lemma remap_same text toks r r' : tokens_ok text toks -> (Z.of_nat (length text) < 2 ^ 29)%Z -> single_blanks text toks ->
  wf_range (length text) r -> remap (compute_char_shifts toks) r = Ok r' -> r' = r.
Proof.
  intros Hok Hlen (_ & S0 & Sg) [W1 W2] H.
  assert (F : Forall (fun z : Z => z = 0%Z) (compute_char_shifts toks)).
  { apply (shifts_zero toks true 0).
    - eapply tokens_ok_laid_out; exact Hok.
    - intros t Ht. destruct (proj1 Hok t Ht) as [[V1 V2] _]. lia.
    - intros t Ht. rewrite (S0 t Ht). reflexivity.
    - exact Sg. }
  rewrite Forall_forall in F. unfold remap, usub, index in H. destruct (Nat.leb_spec 1 (rend r)); [|lia].
  destruct (nth_error _ (rstart r)) as [z|] eqn:E1; [|discriminate]. cbn [bind] in H.
  destruct (nth_error _ (rend r - 1)) as [z'|] eqn:E2; [|discriminate]. cbn [bind] in H.
  apply nth_error_In, F in E1. apply nth_error_In, F in E2. subst z z'. injection H as <-. destruct r as [a b].
  unfold rstart, rend in *. cbn [fst snd] in *.
  rewrite !Z.sub_0_r. rewrite (as_i32_small (Z.of_nat a)), (as_i32_small (Z.of_nat b)) by lia.
  rewrite (as_i32_small (Z.of_nat a)), (as_i32_small (Z.of_nat b)) by lia. unfold as_usize.
  rewrite !Z.mod_small by lia. rewrite !Nat2Z.id. reflexivity.
Qed.

(** What the parser of an engine finds. *)
Lemma custom_found x l gaz text kinds alts out e : gazetteer_quotes gaz ->
  custom_entities x l gaz text kinds alts = Ok out -> In e out ->
  exists g, wf_range (length (analysed x l text)) (ce_range g) /\
    ce_value e = substring (analysed x l text) (ce_range g) /\
    remap (compute_char_shifts (x_tokenize x l (x_lower x text))) (ce_range g) = Ok (ce_range e).
Proof.
  intros G H He. unfold custom_entities, custom_extract in H. bind_inv H. fold (analysed x l text) in E.
  destruct (P_Rules.mapM_In _ _ _ _ H He) as (g & Hg & R). bind_inv R. injection R as <-.
  destruct (G _ _ _ _ _ E Hg) as [W V]. exists g. split; [exact W|]. split; [exact V|exact E0].
Qed.

Lemma custom_found_plain x l gaz text kinds alts out e : gazetteer_quotes gaz ->
  tokens_ok text (x_tokenize x l text) -> (Z.of_nat (length text) < 2 ^ 29)%Z -> plain_text x l text ->
  custom_entities x l gaz text kinds alts = Ok out -> In e out ->
  wf_range (length text) (ce_range e) /\ ce_value e = substring text (ce_range e).
Proof.
  intros G Hok Hlen [Lo Sb] H He. destruct (custom_found _ _ _ _ _ _ _ _ G H He) as (g & W & V & R).
  unfold analysed in W, V. rewrite Lo in W, V, R. rewrite (proj1 Sb) in W, V.
  rewrite (remap_same _ _ _ _ Hok Hlen Sb W R). split; assumption.
Qed.

(** ** extract_slot *)
Lemma extract_entity x en input intent name salts s :
  extract_slot_with_alternatives x en input intent name salts = Ok (Some s) ->
  exists mapping, sget intent (ds_slot_name_mappings (en_dataset en)) = Some mapping /\
    sget name mapping = Some (sl_entity s) /\
    match sget (sl_entity s) (ds_entities (en_dataset en)) with
    | Some ext => extract_custom_slot input (sl_entity s) name ext (rs_custom (en_resources en)) salts = Ok (Some s)
    | None => extract_builtin_slot x input (sl_entity s) name (rs_builtin (en_resources en)) salts = Ok (Some s)
    end.
Proof.
  unfold extract_slot_with_alternatives. intros H. bind_inv H. bind_inv H.
  destruct (sget intent _) as [m|]; [|discriminate]. inv E. destruct (sget name a) as [e|] eqn:En; [|discriminate]. inv E0.
  exists a. split; [reflexivity|]. rename a0 into e.
  assert (Ee : sl_entity s = e).
  { destruct (sget e _) as [ext|].
    - unfold extract_custom_slot in H. bind_inv H. destruct (vec_pop a0) as [c|]; [inv H; reflexivity|].
      destruct ext; inv H; reflexivity.
    - unfold extract_builtin_slot in H. bind_inv H. bind_inv H. destruct (hd_error a1); inv H; reflexivity. }
  rewrite Ee. split; [exact En|]. destruct (sget e _); exact H.
Qed.

Lemma builtin_slot_quotes x en input intent name salts s :
  extract_slot_with_alternatives x en input intent name salts = Ok (Some s) -> ~ custom_slot en s -> quotes input s.
Proof.
  intros H N. destruct (extract_entity _ _ _ _ _ _ _ H) as (m & _ & _ & K). unfold custom_slot in N.
  destruct (sget (sl_entity s) _) as [ext|]; [exfalso; apply N; eauto|].
  unfold extract_builtin_slot in K. bind_inv K. bind_inv K. destruct (hd_error a0); inv K. reflexivity.
Qed.

Lemma extract_custom x en l gaz input intent name salts s :
  rs_custom (en_resources en) = custom_entities x l gaz ->
  extract_slot_with_alternatives x en input intent name salts = Ok (Some s) -> custom_slot en s ->
  (sl_raw_value s = input /\ sl_range s = (0, length input)) \/
  exists es e, custom_entities x l gaz input (Some [sl_entity s]) salts = Ok es /\ In e es /\
    sl_raw_value s = ce_value e /\ sl_range s = ce_range e.
Proof.
  intros P H [ext N]. destruct (extract_entity _ _ _ _ _ _ _ H) as (m & _ & _ & K). rewrite N, P in K.
  unfold extract_custom_slot in K. bind_inv K. destruct (vec_pop a) as [e|] eqn:V.
  - right. apply vec_pop_spec in V as (b & ->). exists (b ++ [e]), e. split; [exact E|].
    split; [apply in_or_app; right; left; reflexivity|]. injection K as K. rewrite <- K. split; reflexivity.
  - left. destruct ext; inv K. split; reflexivity.
Qed.

Lemma custom_slot_raw x en l gaz input intent name salts s :
  rs_custom (en_resources en) = custom_entities x l gaz -> gazetteer_quotes gaz ->
  tokens_ok (x_lower x input) (x_tokenize x l (x_lower x input)) -> (Z.of_nat (length (x_lower x input)) < 2 ^ 29)%Z ->
  extract_slot_with_alternatives x en input intent name salts = Ok (Some s) -> custom_slot en s ->
  (sl_raw_value s = input /\ sl_range s = (0, length input)) \/
  exists r, wf_range (length (analysed x l input)) r /\ sl_raw_value s = substring (analysed x l input) r /\
    forall a oa ta b ob tb, joined_at (x_tokenize x l (x_lower x input)) (rstart r) a oa ta ->
      joined_at (x_tokenize x l (x_lower x input)) (rend r - 1) b ob tb ->
      sl_range s = (rstart (tk_char_range ta) + oa, rstart (tk_char_range tb) + ob + 1).
Proof.
  intros P G Hok Hlen H N. destruct (extract_custom _ _ _ _ _ _ _ _ _ P H N) as [D|(es & e & Hes & He & R1 & R2)]; [left; exact D|].
  right. destruct (custom_found _ _ _ _ _ _ _ _ G Hes He) as (g & W & V & M). exists (ce_range g). split; [exact W|].
  split; [rewrite R1; exact V|]. intros a oa ta b ob tb Ha Hb. rewrite R2.
  eapply remap_spec; [exact Hok|exact Hlen|exact M|exact Ha|exact Hb|destruct W; lia].
Qed.

Lemma substring_whole (s : str) : substring s (0, length s) = s.
Proof. unfold substring, rlen, rstart, rend. cbn [fst snd skipn]. rewrite Nat.sub_0_r. apply firstn_all. Qed.

Lemma custom_slot_plain x en l gaz input intent name salts s :
  rs_custom (en_resources en) = custom_entities x l gaz -> gazetteer_quotes gaz ->
  tokens_ok input (x_tokenize x l input) -> (Z.of_nat (length input) < 2 ^ 29)%Z -> plain_text x l input ->
  extract_slot_with_alternatives x en input intent name salts = Ok (Some s) -> custom_slot en s -> quotes input s.
Proof.
  intros P G Hok Hlen Pl H N. unfold quotes.
  destruct (extract_custom _ _ _ _ _ _ _ _ _ P H N) as [[-> ->]|(es & e & Hes & He & -> & ->)].
  - symmetry. apply substring_whole.
  - apply (custom_found_plain x l gaz input (Some [sl_entity s]) salts es e); assumption.
Qed.

(** ** Whole slots *)
Lemma substring_length (s : str) r : wf_range (length s) r -> length (substring s r) = rend r - rstart r.
Proof.
  intros [W1 W2]. unfold substring, rlen. rewrite firstn_length, skipn_length. lia.
Qed.

Lemma whole_slot x l gaz slot ext ces alts before e :
  gazetteer_quotes gaz -> tokens_ok (is_value slot) (x_tokenize x l (is_value slot)) ->
  (Z.of_nat (length (is_value slot)) < 2 ^ 29)%Z -> plain_text x l (is_value slot) ->
  (forall c, In c ces -> ~ custom_at slot c) ->
  custom_entities x l gaz (is_value slot) (Some [is_entity slot]) alts = Ok (before ++ [e]) ->
  (ce_range e = (0, length (is_value slot)) ->
     resolve_custom_slot slot ext ces (custom_entities x l gaz) alts =
       Ok (Some (with_value slot (SVCustom (ce_resolved e)) (map SVCustom (ce_alternatives e))))) /\
  (ce_range e <> (0, length (is_value slot)) ->
     resolve_custom_slot slot ext ces (custom_entities x l gaz) alts =
       Ok (if ext then Some (with_value slot (SVCustom (is_value slot)) []) else None)).
Proof.
  intros G Hok Hlen Pl N H.
  destruct (custom_found_plain _ _ _ _ _ _ _ e G Hok Hlen Pl H) as [W V]; [apply in_or_app; right; left; reflexivity|].
  assert (Le : length (ce_value e) = rend (ce_range e) - rstart (ce_range e)) by (rewrite V; apply substring_length; exact W).
  destruct W as [W1 W2].
  assert (Fn : find (fun c => str_eqb (ce_entity c) (is_entity slot) && range_eqb (ce_range c) (is_range slot)) ces = None).
  { destruct (find _ ces) as [c|] eqn:F; [|reflexivity]. apply find_some in F as [Hc B]. exfalso. apply (N c Hc).
    apply andb_prop in B as [B1 B2]. apply str_eqb_spec in B1. apply range_eqb_spec in B2. split; assumption. }
  unfold resolve_custom_slot. rewrite Fn, H. cbn [bind].
  replace (vec_pop (before ++ [e])) with (Some e) by (symmetry; apply vec_pop_spec; eauto).
  destruct (ce_range e) as [a b] eqn:Er. unfold rstart, rend in *. cbn [fst snd] in *.
  destruct (Nat.eqb_spec (length (ce_value e)) (length (is_value slot))) as [Q|Q]; split; intros K.
  - cbn [option_map]. reflexivity.
  - exfalso. apply K. f_equal; lia.
  - exfalso. injection K as -> ->. lia.
  - destruct ext; reflexivity.
Qed.

Section LoadedCustom.
  Context (x : Ext) (shape : str -> str) (ngrams : list str -> nat -> list str) (mx : Math) (L : Loader)
          (fo : path -> orders) (uo : path -> nat -> HashOrder).
  Lemma loaded_custom f p en : from_path x shape ngrams mx L fo uo f p = Ok en ->
    exists l d gaz, ld_gazetteer L f d = Ok gaz /\ rs_custom (en_resources en) = custom_entities x l gaz.
  Proof.
    intros H. unfold from_path in H. bind_inv H. bind_inv H. bind_inv H. inv H. cbn [en_resources].
    unfold resources_of in E0. bind_inv E0. unfold load_shared_resources in E0. do 7 bind_inv E0. inv E0. cbn [rs_custom].
    unfold load_custom in E9. do 3 bind_inv E9. inv E9. do 3 eexists. split; [eassumption|reflexivity].
  Qed.
End LoadedCustom.
