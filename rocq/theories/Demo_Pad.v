(** Texts with blanks around them, for the examples of C90. Not part of the model of the
    repository. *)
From Coq Require Import String List NArith ZArith Bool Arith Lia.
From Verif Require Import Base Sorting F32 M_Types M_Utils M_Engine M_Det M_Lookup M_Feat M_Prob M_Features M_Crf M_Filler M_Cache M_Res M_Fs M_Json M_Load
  S_Base S_Utils S_Engine S_Det S_Rank S_Rules S_Load S_Match S_Answer S_Made S_Seeds S_Case S_Pad
  P_Base P_Engine P_MatchDet P_Custom P_Made P_Case Demo P_Demo Demo_Rules Demo_Prob Demo_Crf Demo_Load Demo_Home Demo_Made Demo_Seeds Demo_Case.
Import ListNotations.
Local Open Scope string_scope.
Local Open Scope list_scope.
Local Open Scope nat_scope.

(** ** The contract *)
Lemma tok_after s k : forall b c cur, demo_tok (s ++ repeat 32%N k) b c cur = demo_tok s b c cur.
Proof.
  induction s as [|h s IH]; intros b c cur.
  - cbn [app]. revert b c cur. induction k as [|k IH]; intros b c cur; [reflexivity|]. cbn [repeat].
    change (demo_tok (32%N :: repeat 32%N k) b c cur)
      with (demo_tok [] b c cur ++ demo_tok (repeat 32%N k) (b + 1) (c + 1) []). rewrite IH. apply app_nil_r.
  - cbn [app demo_tok]. rewrite !IH. reflexivity.
Qed.
Lemma tok_before s n : forall b c, demo_tok (repeat 32%N n ++ s) b c [] = demo_tok s (n + b) (n + c) [].
Proof.
  induction n as [|n IH]; intros b c; [reflexivity|]. cbn [repeat app].
  change (demo_tok (32%N :: repeat 32%N n ++ s) b c []) with (demo_tok (repeat 32%N n ++ s) (b + 1) (c + 1) []).
  rewrite IH. f_equal; lia.
Qed.
Lemma tok_moved n s : forall b c cur, byte_len cur <= b -> length cur <= c ->
  demo_tok s (n + b) (n + c) cur = map (moved_token n) (demo_tok s b c cur).
Proof.
  assert (Fl : forall b c cur, byte_len cur <= b -> length cur <= c ->
    demo_tok [] (n + b) (n + c) cur = map (moved_token n) (demo_tok [] b c cur)).
  { intros b c [|h cur] B C; [reflexivity|]. cbn [demo_tok map]. unfold moved_token, moved. cbn [tk_value tk_range tk_char_range rstart rend fst snd].
    rewrite !Nat.add_sub_assoc by assumption. reflexivity. }
  induction s as [|h s IH]; intros b c cur B C; [apply Fl; assumption|].
  cbn [demo_tok]. destruct (h =? space)%N.
  - rewrite map_app. f_equal; [exact (Fl b c cur B C)|]. rewrite <- !Nat.add_assoc. apply IH; cbn; lia.
  - rewrite <- !Nat.add_assoc. apply IH; unfold byte_len in *; cbn [map list_sum fold_right length] in *; lia.
Qed.
Lemma tokenize_padded n k s : demo_tokenize (padded n k s) = map (moved_token n) (demo_tokenize s).
Proof.
  unfold demo_tokenize, padded. rewrite tok_before, tok_after. apply tok_moved; cbn; lia.
Qed.
Lemma values_moved n ts : map tk_value (map (moved_token n) ts) = map tk_value ts.
Proof. rewrite map_map. reflexivity. Qed.
Lemma blanks_lower n : map demo_lower_char (repeat 32%N n) = repeat 32%N n.
Proof. induction n as [|n IH]; [reflexivity|]. cbn [repeat map]. rewrite IH. reflexivity. Qed.

Lemma case_margin pairs shapes : margin_blind demo_ext (case_loader pairs shapes).
Proof.
  intros n k s. split; [|split; [|split]].
  - cbn [x_lower demo_ext]. unfold padded. rewrite !map_app, !blanks_lower. reflexivity.
  - intros l. apply tokenize_padded.
  - intros l. cbn [x_tokenize_light demo_ext]. rewrite tokenize_padded. apply values_moved.
  - intros f p parser kinds alts H. cbn [ld_builtin case_loader] in H.
    assert (E := f_equal (get_ok (fun _ _ _ => Panic)) H). cbn [get_ok] in E. rewrite <- E. clear H E. unfold demo_builtin. cbn [on_ok].
    rewrite tokenize_padded. f_equal. induction (demo_tokenize s) as [|t ts IH]; [reflexivity|].
    cbn [map flat_map]. rewrite map_app, IH. f_equal. cbn [tk_value moved_token].
    destruct (_ && _); reflexivity.
Qed.

Lemma case_regex_ok p : regex_ok (case_regex p).
Proof.
  intros s caps H n rg Hin. unfold case_regex in H.
  destruct (list_eqb _ _ _); [|discriminate]. injection H as <-. destruct Hin as [E|Hin].
  - injection E as _ <-. exists 0, (length s). rewrite firstn_all. repeat split; simpl; lia.
  - apply in_map_iff in Hin as ([c t] & E & Hin). injection E as _ <-. apply in_combine_r in Hin. cbn [snd].
    destruct (demo_tokenizer_ok EN s) as [T _]. destruct (T t Hin) as ([W1 W2] & _ & ->).
    exists (rstart (tk_char_range t)), (rend (tk_char_range t)). repeat split; auto; lia.
Qed.
Lemma case_regex_margins p : allows_margins (case_regex p).
Proof.
  split; [apply case_regex_ok|]. intros n k s. unfold case_regex. rewrite tokenize_padded, map_map. cbn [tk_value moved_token].
  destruct (list_eqb _ _ _); [|exact I]. cbn [skipn]. rewrite map_map. generalize (demo_tokenize s). clear s.
  induction p as [|w p IH]; intros [|t ts]; try reflexivity. cbn [map combine]. rewrite IH. reflexivity.
Qed.
Lemma case_regex_groups p s caps : case_regex p s = Some caps -> length caps <= S (length p).
Proof.
  unfold case_regex. destruct (list_eqb _ _ _); [|discriminate]. intros E.
  apply (f_equal (fun o => match o with Some l => length l | None => 0 end)) in E. rewrite <- E.
  cbn [length]. rewrite map_length, combine_length. lia.
Qed.
Lemma case_groups_fit pairs shapes : groups_fit (ld_regex (case_loader pairs shapes)).
Proof.
  intros p r s caps H E. cbn [ld_regex case_loader] in H. unfold case_compile in H.
  destruct (str_eqb p _); [|destruct (str_eqb p _); [|discriminate]];
    (apply (f_equal (get_ok (fun _ => None))) in H; cbn [get_ok] in H; rewrite <- H in E; apply case_regex_groups in E; cbn [length] in E; lia).
Qed.

(** ** The layout *)
Notation pad_loader := (case_loader false false).
Definition pad_engine : Engine := case_engine false false.
Definition pad_rules : DetModel := get_ok no_dm (d_deterministic (fun _ => id_order) case_rules_doc).
Lemma pad_rules_at : rules_at pad_loader home_orders home (pjoin dir_e $"rules") (Patterns pad_rules).
Proof.
  split.
  - apply (case_holds _ _ _ _ _ $"D" (doc "D")); [vm_compute; reflexivity..|]. reflexivity.
  - apply (case_holds _ _ _ _ _ $"DM" case_rules_doc); [vm_compute; reflexivity..|]. apply get_ok_eq. vm_compute. reflexivity.
Qed.
Lemma pad_rules_only name dm : In name (em_parsers case_model) -> rules_at pad_loader home_orders home (pjoin dir_e name) (Patterns dm) ->
  dm = pad_rules.
Proof.
  intros I [U D]. change (em_parsers case_model) with [$"rules"; $"table"; $"stats"] in I. destruct I as [<-|[<-|[<-|[]]]].
  - exact (says_fun _ _ _ _ _ _ _ _ D (proj2 pad_rules_at)).
  - exfalso. assert (V : unit_at pad_loader home_orders home (pjoin dir_e $"table") ULookup).
    { apply (case_holds _ _ _ _ _ $"T" (doc "T")); [vm_compute; reflexivity..|]. reflexivity. }
    pose proof (says_fun _ _ _ _ _ _ _ _ U V) as X. discriminate X.
  - exfalso. assert (V : unit_at pad_loader home_orders home (pjoin dir_e $"stats") UProbabilistic).
    { apply (case_holds _ _ _ _ _ $"P" (doc "P")); [vm_compute; reflexivity..|]. reflexivity. }
    pose proof (says_fun _ _ _ _ _ _ _ _ U V) as X. discriminate X.
Qed.

(** ** The texts *)
Definition on_text : str := $"light on in the kitchen".
Definition turn_text : str := $"turn on the living room now".
Notation pad_res := (en_resources pad_engine).
Definition no_dp : DetParser := mkDP EN [] [] [] [] [] [] demo_res.
Definition pad_dp : DetParser := get_ok no_dp (det_new demo_ext demo_lang case_compile id_order id_order id_order pad_rules pad_res).
Lemma pad_dp_eq : det_new demo_ext demo_lang case_compile id_order id_order id_order pad_rules pad_res = Ok pad_dp.
Proof. apply get_ok_eq. vm_compute. reflexivity. Qed.

Lemma pad_custom : rs_custom pad_res = custom_entities demo_ext EN home_gaz.
Proof. reflexivity. Qed.
Lemma pad_builtin_ok s : builtin_parser_ok (rs_builtin pad_res) s.
Proof.
  intros f u n es H e He. change (rs_builtin pad_res) with (fun s kinds (_ : bool) alts => demo_builtin (x_lower demo_ext s) kinds false alts) in H.
  cbv beta in H. pose proof (demo_builtin_ok _ _ _ _ _ H _ He) as W. cbn [x_lower demo_ext] in W. rewrite map_length in W. exact W.
Qed.
Lemma on_externals : externals_ok demo_ext pad_loader pad_res on_text.
Proof.
  split; [exact demo_tokenizer_ok|]. split; [apply pad_builtin_ok|]. split; [|apply case_groups_fit].
  intros f n out H e He. rewrite pad_custom in H. unfold custom_entities in H.
  apply custom_moved in H; [|exact (demo_tokenizer_ok EN _)|vm_compute; reflexivity].
  destruct H as (es & G & F). destruct (Forall2_In_r _ _ _ _ F He) as (g & Ig & (_ & _ & _ & _ & M)).
  apply (scoped_more _ _ _ _ _ G) in Ig.
  assert (K : Forall (fun g => ce_range g = (16, 23)) (get_ok [] (home_gaz (join [space] (map tk_value (x_tokenize demo_ext EN (x_lower demo_ext on_text)))) None n)))
    by (vm_compute; repeat constructor).
  rewrite Forall_forall in K. specialize (K g Ig). rewrite K in M.
  specialize (M 4 0 (mkTok $"kitchen" (16, 23) (16, 23)) 4 6 (mkTok $"kitchen" (16, 23) (16, 23))).
  rewrite M; [vm_compute; lia| | |cbn [rend snd]; lia]; (split; [vm_compute; reflexivity|split; [vm_compute; lia|vm_compute; reflexivity]]).
Qed.
Lemma turn_externals : externals_ok demo_ext pad_loader pad_res turn_text.
Proof.
  split; [exact demo_tokenizer_ok|]. split; [apply pad_builtin_ok|]. split; [|apply case_groups_fit].
  intros f n out H e He. rewrite pad_custom in H. unfold custom_entities in H.
  apply custom_moved in H; [|exact (demo_tokenizer_ok EN _)|vm_compute; reflexivity].
  destruct H as (es & G & F). destruct (Forall2_In_r _ _ _ _ F He) as (g & Ig & (_ & _ & _ & _ & M)).
  apply (scoped_more _ _ _ _ _ G) in Ig.
  assert (K : Forall (fun g => ce_range g = (12, 23)) (get_ok [] (home_gaz (join [space] (map tk_value (x_tokenize demo_ext EN (x_lower demo_ext turn_text)))) None n)))
    by (vm_compute; repeat constructor).
  rewrite Forall_forall in K. specialize (K g Ig). rewrite K in M.
  specialize (M 3 0 (mkTok $"living" (12, 18) (12, 18)) 4 3 (mkTok $"room" (19, 23) (19, 23))).
  rewrite M; [vm_compute; lia| | |cbn [rend snd]; lia]; (split; [vm_compute; reflexivity|split; [vm_compute; lia|vm_compute; reflexivity]]).
Qed.

Lemma pad_slots_decl i decls : In (i, decls) (dm_slots pad_rules) ->
  (i = $"lightOn" /\ decls = [($"room", $"room")]) \/ (i = $"setTemp" /\ decls = [($"room", $"room"); ($"degrees", $"snips/number")]).
Proof.
  intros H.
  assert (I : In (i, decls) [($"lightOn", [($"room", $"room")]); ($"setTemp", [($"room", $"room"); ($"degrees", $"snips/number")])])
    by (revert H; vm_compute; exact (fun h => h)).
  destruct I as [I|[I|[]]]; [left|right]; (split; [exact (eq_sym (f_equal fst I))|exact (eq_sym (f_equal snd I))]).
Qed.
Definition kept_for (input : str) (decls : list (str * str)) : list MatchedEntity :=
  let scope := det_scope demo_ext decls in
  deduplicate_overlapping_entities
    (map (fun b => mkME (be_range b) (be_kind b)) (get_ok [] (rs_builtin pad_res input (Some (fst scope)) true 0)) ++
     map (fun c => mkME (ce_range c) (ce_entity c)) (get_ok [] (rs_custom pad_res input (Some (snd scope)) 0))).
Lemma kept_is input decls kept : intent_entities demo_ext pad_res input decls kept -> kept = kept_for input decls.
Proof.
  intros (scope & es & Sc & (bes & ces & Eb & Ec & ->) & ->). apply scope_eq in Sc. subst scope. unfold kept_for. rewrite Eb, Ec. reflexivity.
Qed.
Definition respects_b (re : Regex) (text : str) (places : list range) : bool :=
  match re text with
  | Some caps => forallb (fun c => match snd c with
      | Some rg => let g := convert_to_char_range text rg in
          existsb (fun k => (rstart k =? rstart g) && (rend k =? rend g)) places
          || forallb (fun k => (rend k <=? rstart g) || (rend g <=? rstart k)) places
      | None => true end) (skipn 1 caps)
  | None => true
  end.
Lemma respects_ok re text places : respects_b re text places = true -> respects_placeholders re text places.
Proof.
  intros H caps E n rg I. unfold respects_b in H. rewrite E in H. rewrite forallb_forall in H. specialize (H _ I). cbn [snd] in H.
  apply orb_prop in H as [H|H]; [left|right].
  - apply existsb_exists in H as ([a b] & K & H). apply andb_prop in H as [A B]. apply Nat.eqb_eq in A, B. cbn [rstart rend fst snd] in A, B.
    rewrite A, B in K. unfold rstart, rend in K. rewrite <- surjective_pairing in K. exact K.
  - rewrite forallb_forall in H. intros k K. specialize (H k K). apply orb_prop in H as [H|H]; apply Nat.leb_le in H; auto.
Qed.
Definition respects_at (input i : str) (decls : list (str * str)) (pattern : str) : bool :=
  let kept := kept_for input decls in
  respects_b (get_ok (fun _ => None) (case_compile pattern))
    (get_ok [] (det_preprocess demo_ext pad_dp (with_placeholders demo_ext input kept) i))
    (map fst (edit_positions 0 0 (map (fun e => (me_range e, placeholder demo_ext (me_name e))) kept))).

Lemma pad_patterns i patterns pattern : In (i, patterns) (dm_patterns pad_rules) -> In pattern patterns ->
  (i = $"lightOn" /\ pattern = $light_pattern) \/ (i = $"setTemp" /\ pattern = $temp_pattern).
Proof.
  intros H J. assert (I : In (i, patterns) [($"lightOn", [$light_pattern]); ($"setTemp", [$temp_pattern])]) by (revert H; vm_compute; exact (fun h => h)).
  destruct I as [I|[I|[]]]; (pose proof (f_equal fst I) as A; pose proof (f_equal snd I) as B; cbn [fst snd] in A, B;
    rewrite <- B in J; destruct J as [J|[]]); [left|right]; (split; symmetry; assumption).
Qed.
Lemma pad_once : det_keys_once pad_rules.
Proof. split; [|split]; vm_compute; repeat constructor; cbn [In]; intros K; repeat destruct K as [K|K]; try discriminate K; contradiction. Qed.

Lemma pad_allow input :
  respects_at input $"lightOn" [($"room", $"room")] $light_pattern = true ->
  respects_at input $"setTemp" [($"room", $"room"); ($"degrees", $"snips/number")] $temp_pattern = true ->
  patterns_allow_margins demo_ext pad_loader pad_res input pad_rules.
Proof.
  intros A B i patterns pattern re I1 I2 C. split.
  - cbn [ld_regex case_loader] in C. unfold case_compile in C.
    destruct (str_eqb pattern _); [|destruct (str_eqb pattern _); [|discriminate]];
      (apply (f_equal (get_ok (fun _ => None))) in C; cbn [get_ok] in C; rewrite <- C; apply case_regex_margins).
  - intros l decls kept text Hl Sl Ke Cl. apply kept_is in Ke. subst kept.
    assert (l = dp_lang pad_dp) as -> by (vm_compute in Hl; injection Hl as <-; vm_compute; reflexivity).
    apply (cleaned_eq _ _ _ _ _ _ _ _ _ pad_dp_eq pad_once demo_tokenizer_ok) in Cl.
    apply (f_equal (get_ok [])) in Cl. cbn [get_ok] in Cl. rewrite <- Cl.
    change (ld_regex pad_loader) with case_compile in C. apply (f_equal (get_ok (fun _ => None))) in C. cbn [get_ok] in C. rewrite <- C.
    apply respects_ok.
    destruct (pad_patterns _ _ _ I1 I2) as [[-> ->]|[-> ->]], (pad_slots_decl _ _ Sl) as [[E ->]|[E ->]]; [exact A| | |exact B];
      (exfalso; revert E; vm_compute; discriminate).
Qed.
Definition fits_b (s : str) : bool := (Z.of_nat (length s) <? 32768)%Z.
Lemma pad_fits s : fits_b s = true ->
  forallb (fun decls => fits_b (with_placeholders demo_ext s (kept_for s decls)))
    [[($"room", $"room")]; [($"room", $"room"); ($"degrees", $"snips/number")]] = true ->
  texts_fit demo_ext pad_rules pad_res s.
Proof.
  intros A B. split; [apply Z.ltb_lt, A|]. intros i decls kept Sl Ke. apply kept_is in Ke. subst kept. rewrite forallb_forall in B.
  apply Z.ltb_lt, B. destruct (pad_slots_decl _ _ Sl) as [[_ ->]|[_ ->]]; [left|right; left]; reflexivity.
Qed.
Lemma pad_margins n k input : texts_fit demo_ext pad_rules pad_res (padded n k input) ->
  patterns_allow_margins demo_ext pad_loader pad_res input pad_rules ->
  rules_allow_margins demo_ext pad_loader home_orders home dir_e case_model pad_res n k input.
Proof.
  intros A B name [dm|t] I R; [rewrite (pad_rules_only _ _ I R)|split; [exact (proj1 (case_tables _ _ _ _ R))|exact Logic.I]].
  split; [exact A|exact B].
Qed.
Lemma on_margins : rules_allow_margins demo_ext pad_loader home_orders home dir_e case_model pad_res 2 1 on_text.
Proof. apply pad_margins; [apply pad_fits|apply pad_allow]; vm_compute; reflexivity. Qed.
Lemma turn_margins : rules_allow_margins demo_ext pad_loader home_orders home dir_e case_model pad_res 3 2 turn_text.
Proof. apply pad_margins; [apply pad_fits|apply pad_allow]; vm_compute; reflexivity. Qed.

Definition pad_summary (s : str) := summary (get_ok no_result (parse_with_alternatives demo_ext id_order id_order pad_engine s None None 0 0)).
Definition slot_view (s : Slot) : str * str * range := (sl_raw_value s, sl_slot_name s, sl_range s).
Definition pad_slots_of (s : str) := map slot_view (get_ok [] (get_slots_with_alternatives demo_ext pad_engine s $"lightOn" 0)).
Definition pad_extracted (s : str) := option_map slot_view (get_ok None (extract_slot_with_alternatives demo_ext pad_engine s $"lightOn" $"room" 0)).
Definition pad_alternatives_of (s : str) := map (fun a => (ir_name (al_intent a), map slot_view (al_slots a)))
  (ps_alternatives (get_ok no_result (parse_with_alternatives demo_ext id_order id_order pad_engine s None None 2 0))).

(** The hypotheses of the theorems. *)
Definition pad_setting (n k : nat) (input : str) : Prop :=
  input <> [] /\ (Z.of_nat (length (padded n k input)) < 2147483648)%Z /\
  externals_ok demo_ext pad_loader pad_res input /\
  rules_allow_margins demo_ext pad_loader home_orders home dir_e case_model pad_res n k input.
Lemma pad_case :
  margin_blind demo_ext pad_loader /\
  from_path demo_ext demo_shape no_ngrams demo_math pad_loader home_orders home_orders home dir_e = Ok pad_engine /\
  file_says pad_loader home_orders home dir_e $"nlu_engine.json" d_engine case_model /\
  (forall input wl, tables_hardly_ambiguous demo_ext pad_loader home_orders home dir_e case_model pad_res input wl) /\
  pad_setting 2 1 on_text /\ pad_setting 3 2 turn_text /\
  no_ties id_order pad_engine on_text.
Proof.
  split; [apply case_margin|]. split; [exact (case_eq false false)|]. split; [apply case_model_at|]. split; [intros; apply case_hardly|].
  split; [split; [discriminate|split; [vm_compute; reflexivity|split; [exact on_externals|exact on_margins]]]|].
  split; [split; [discriminate|split; [vm_compute; reflexivity|split; [exact turn_externals|exact turn_margins]]]|].
  apply distinct_no_ties. vm_compute. reflexivity.
Qed.
Lemma pad_answers :
  padded 2 1 on_text = $"  light on in the kitchen " /\
  pad_summary on_text = (Some $"lightOn", [($"kitchen", (16, 23))]) /\
  pad_summary $"  light on in the kitchen " = (Some $"lightOn", [($"kitchen", (18, 25))]) /\
  padded 3 2 turn_text = $"   turn on the living room now  " /\
  pad_summary turn_text = (Some $"lightOn", [($"living room", (12, 23))]) /\
  pad_summary $"   turn on the living room now  " = (Some $"lightOn", [($"living room", (15, 26))]).
Proof. repeat split; vm_compute; reflexivity. Qed.
Lemma pad_more_answers :
  pad_slots_of turn_text = [($"living room", $"room", (12, 23))] /\ pad_slots_of (padded 3 2 turn_text) = [($"living room", $"room", (15, 26))] /\
  pad_alternatives_of on_text = [(Some $"setTemp", []); (None, [])] /\ pad_alternatives_of (padded 2 1 on_text) = [(Some $"setTemp", []); (None, [])] /\
  pad_extracted $"kitchen" = Some ($"kitchen", $"room", (0, 7)) /\ pad_extracted (padded 1 0 $"kitchen") = Some ($"kitchen", $"room", (1, 8)) /\
  pad_extracted $"cellar" = Some ($"cellar", $"room", (0, 6)) /\ pad_extracted (padded 1 0 $"cellar") = Some ($" cellar", $"room", (0, 7)).
Proof. repeat split; vm_compute; reflexivity. Qed.

(** ** The empty text *)
Lemma empty_externals : externals_ok demo_ext pad_loader pad_res [].
Proof.
  split; [exact demo_tokenizer_ok|]. split; [apply pad_builtin_ok|]. split; [|apply case_groups_fit].
  intros f n out H e He. rewrite pad_custom in H. unfold custom_entities in H.
  apply custom_moved in H; [|exact (demo_tokenizer_ok EN _)|vm_compute; reflexivity].
  destruct H as (es & G & F). destruct (Forall2_In_r _ _ _ _ F He) as (g & Ig & _).
  apply (scoped_more _ _ _ _ _ G) in Ig. vm_compute in Ig. contradiction.
Qed.
Lemma empty_margins : rules_allow_margins demo_ext pad_loader home_orders home dir_e case_model pad_res 1 0 [].
Proof. apply pad_margins; [apply pad_fits|apply pad_allow]; vm_compute; reflexivity. Qed.
Definition pad_answer (s : str) : ParseResult := get_ok no_result (parse_with_alternatives demo_ext id_order id_order pad_engine s None None 0 0).
Lemma empty_differs : exists x shape ngrams mx L fo uo f p en m n k r r',
  margin_blind x L /\ (Z.of_nat (length (padded n k [])) < 2147483648)%Z /\
  from_path x shape ngrams mx L fo uo f p = Ok en /\ file_says L fo f p $"nlu_engine.json" d_engine m /\
  externals_ok x L (en_resources en) [] /\ rules_allow_margins x L fo f p m (en_resources en) n k [] /\
  (forall wl, tables_hardly_ambiguous x L fo f p m (en_resources en) [] wl) /\
  parse_with_alternatives x id_order id_order en [] None None 0 0 = Ok r /\
  parse_with_alternatives x id_order id_order en (padded n k []) None None 0 0 = Ok r' /\
  ir_name (ps_intent r) = None /\ ir_name (ps_intent r') = Some $"lightOn".
Proof.
  exists demo_ext, demo_shape, no_ngrams, demo_math, pad_loader, home_orders, home_orders, home, dir_e, pad_engine, case_model, 1, 0,
    (pad_answer []), (pad_answer (padded 1 0 [])).
  split; [apply case_margin|]. split; [vm_compute; reflexivity|]. split; [exact (case_eq false false)|]. split; [apply case_model_at|].
  split; [exact empty_externals|]. split; [exact empty_margins|]. split; [intros; apply case_hardly|].
  split; [apply get_ok_eq; vm_compute; reflexivity|]. split; [apply get_ok_eq; vm_compute; reflexivity|].
  split; vm_compute; reflexivity.
Qed.
