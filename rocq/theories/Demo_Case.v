(** The home engine with regular expressions that ignore the case, for the examples of C83. Not
    part of the model of the repository. *)
From Coq Require Import String List NArith ZArith Bool Arith Lia.
From Verif Require Import Base Sorting F32 M_Types M_Utils M_Engine M_Det M_Lookup M_Feat M_Prob M_Features M_Crf M_Filler M_Cache M_Res M_Fs M_Json M_Load
  S_Base S_Utils S_Engine S_Det S_Rank S_Rules S_Load S_Match S_Answer S_Made S_Seeds S_Case
  P_Base P_Engine P_Made P_Case Demo P_Demo Demo_Rules Demo_Prob Demo_Crf Demo_Load Demo_Home Demo_Made Demo_Seeds.
Import ListNotations.
Local Open Scope string_scope.
Local Open Scope list_scope.
Local Open Scope nat_scope.

(** ** A regular expression that ignores the case: words, some of them named groups *)
Definition case_regex (p : demo_pattern) : Regex := fun s =>
  let ts := demo_tokenize s in
  if list_eqb str_eqb (map (fun t => map demo_lower_char (tk_value t)) ts) (map (fun w => map demo_lower_char (snd w)) p)
  then Some ((None, Some (0, byte_len s)) :: map (fun ct => (fst (fst ct), Some (tk_range (snd ct)))) (combine p ts))
  else None.
Definition light_pattern : string := "^light on in (?P<group0>%ROOM%)$".
Definition temp_pattern : string := "^(?:set) (?P<group0>%ROOM%) to (?P<group1>%SNIPS/NUMBER%)$".
Definition case_compile (p : str) : outcome Regex :=
  if str_eqb p $light_pattern
  then Ok (case_regex [(None, $"light"); (None, $"on"); (None, $"in"); (Some $"group0", $"%ROOM%")])
  else if str_eqb p $temp_pattern
  then Ok (case_regex [(None, $"set"); (Some $"group0", $"%ROOM%"); (None, $"to"); (Some $"group1", $"%SNIPS/NUMBER%")])
  else Err EOther.

(** ** The documents: with or without cooccurrences, with or without shapes of words *)
Definition case_rules_doc : json :=
  obj [("language_code", txt "en");
       ("patterns", obj [("lightOn", arr [light_pattern]); ("setTemp", arr [temp_pattern])]);
       ("group_names_to_slot_names", obj [("group0", txt "room"); ("group1", txt "degrees")]);
       ("slot_names_to_entities", obj [("lightOn", obj [("room", txt "room")]);
          ("setTemp", obj [("room", txt "room"); ("degrees", txt "snips/number")])]);
       ("config", obj [("ignore_stop_words", JBool true)])].
Definition featurizer_doc (pairs : bool) : json :=
  obj [("language_code", txt "en"); ("tfidf_vectorizer", txt "tfidf");
       ("cooccurrence_vectorizer", if pairs then txt "pairs" else JNull)].
Definition classifier_doc (pairs : bool) : json :=
  obj [("featurizer", txt "featurizer"); ("intercept", nums [if pairs then -1 else 0; 1; -1]%Z);
       ("coeffs", JArr (if pairs then [nums [0; 0; 0; 9]%Z; nums [0; 0; 0; -9]%Z; nums [0; 0; 0; 0]%Z]
                        else [nums [9; -9; 0]%Z; nums [-9; 9; 2]%Z; nums [-1; -1; 0]%Z]));
       ("intent_list", JArr [txt "lightOn"; txt "setTemp"; JNull])].
Definition shape_factory : json :=
  obj [("factory_name", txt "shape_ngram"); ("offsets", nums [0]%Z); ("args", obj [("n", JNum 1)])].
Definition filler_doc (shapes : bool) : json :=
  obj [("language_code", txt "en"); ("intent", txt "lightOn"); ("slot_name_mapping", obj [("room", txt "room")]);
       ("crf_model_file", txt "model.crfsuite");
       ("config", obj [("tagging_scheme", JNum 1);
                       ("feature_factory_configs", JArr (if shapes then [shape_factory] else filler_factories))])].
Definition case_changes (pairs shapes : bool) : list (str * json) :=
  [($"DM", case_rules_doc); ($"FZ", featurizer_doc pairs); ($"LM", classifier_doc pairs); ($"SM", filler_doc shapes)].
Definition case_documents (pairs shapes : bool) : list (str * json) :=
  case_changes pairs shapes ++ filter (fun d => negb (smem (fst d) (map fst (case_changes pairs shapes)))) home_documents.

(** A tagger that takes words with a capital for rooms. *)
Definition shape_tag (row : list (str * str)) : str :=
  match sget $"shape_ngram_1" row with
  | Some w => if str_eqb w $"Xxx" then $"B-room" else $"O"
  | None => $"O"
  end.
Definition shape_tagger : Tagger :=
  mkTagger (Ok (map encode_tag [$"B-room"; $"O"])) (fun fs => Ok (map (fun row => encode_tag (shape_tag row)) fs))
           (fun _ _ => Ok (f64_of_Z 1)).

Definition case_loader (pairs shapes : bool) : Loader :=
  mkLoader (fun c => sget c (case_documents pairs shapes)) home_f32 demo_lang (fun _ => $"en") case_compile
           (fun _ _ => Ok (fun s kinds alts => demo_builtin s kinds false alts))
           (fun _ _ => Ok home_gaz)
           (fun f p => match f (resolve p) with Some (File _) => Ok (if shapes then shape_tagger else demo_tagger) | _ => Err EIo end).
Definition load_case (pairs shapes : bool) : outcome Engine :=
  from_path demo_ext demo_shape no_ngrams demo_math (case_loader pairs shapes) home_orders home_orders home dir_e.
Definition case_engine (pairs shapes : bool) : Engine := get_ok no_engine (load_case pairs shapes).
Lemma case_eq pairs shapes : load_case pairs shapes = Ok (case_engine pairs shapes).
Proof. apply get_ok_eq. destruct pairs, shapes; vm_compute; reflexivity. Qed.

Definition case_answer (pairs shapes : bool) (s : string) : ParseResult :=
  get_ok no_result (parse_with_alternatives demo_ext id_order id_order (case_engine pairs shapes) $s None None 0 0).
Definition case_summary (pairs shapes : bool) (s : string) := summary (case_answer pairs shapes s).

(** ** The contract *)
Lemma letter_lower c c' : same_letter demo_ext c c' -> demo_lower_char c = demo_lower_char c' /\ utf8_len c = utf8_len c'.
Proof. intros [->|(L & U & _)]; [auto|]. split; [injection L as L; exact L|exact U]. Qed.
Lemma letter_same c c' : same_letter demo_ext c c' -> ~ (97 <= demo_lower_char c <= 122)%N -> c = c'.
Proof.
  intros H N. apply letter_lower in H as [L _]. unfold demo_lower_char in *.
  destruct (N.leb_spec 65 c); destruct (N.leb_spec c 90); destruct (N.leb_spec 65 c'); destruct (N.leb_spec c' 90); cbn [andb] in *; lia.
Qed.
Lemma text_lower s s' : same_text demo_ext s s' -> map demo_lower_char s = map demo_lower_char s'.
Proof. induction 1 as [|c c' s s' H F IH]; [reflexivity|]. cbn [map]. rewrite (proj1 (letter_lower _ _ H)), IH. reflexivity. Qed.
Lemma text_bytes s s' : same_text demo_ext s s' -> byte_len s = byte_len s'.
Proof. induction 1 as [|c c' s s' H F IH]; [reflexivity|]. unfold byte_len in *. cbn [map fold_right list_sum] in *. rewrite (proj2 (letter_lower _ _ H)), IH. reflexivity. Qed.
Lemma rev_same s s' : same_text demo_ext s s' -> same_text demo_ext (rev s) (rev s').
Proof. induction 1 as [|c c' s s' H F IH]; [constructor|]. apply Forall2_app; [exact IH|apply Forall2_cons; [exact H|constructor]]. Qed.
Definition tokens_same (t t' : token) : Prop :=
  tk_range t = tk_range t' /\ tk_char_range t = tk_char_range t' /\ same_text demo_ext (tk_value t) (tk_value t').
Lemma tok_same s s' : same_text demo_ext s s' -> forall b c cur cur', same_text demo_ext cur cur' ->
  Forall2 tokens_same (demo_tok s b c cur) (demo_tok s' b c cur').
Proof.
  assert (Fl : forall b c cur cur', same_text demo_ext cur cur' -> Forall2 tokens_same
    match cur with [] => [] | _ => [mkTok (rev cur) (b - byte_len cur, b) (c - length cur, c)] end
    match cur' with [] => [] | _ => [mkTok (rev cur') (b - byte_len cur', b) (c - length cur', c)] end).
  { intros b c cur cur' F. pose proof (text_bytes _ _ F) as B. pose proof (rel_length _ _ _ F) as Ln. pose proof (rev_same _ _ F) as Rv.
    destruct F as [|h h' t t' H F]; [constructor|]. repeat constructor; cbn [tk_range tk_char_range tk_value]; [congruence|congruence|exact Rv]. }
  induction 1 as [|h h' s s' H F IH]; intros b c cur cur' C; cbn [demo_tok]; [apply Fl, C|].
  assert (Sp : (h =? space)%N = (h' =? space)%N).
  { destruct (N.eqb_spec h space) as [->|N].
    - assert (E : space = h') by (apply letter_same; [exact H|vm_compute; intros [A _]; apply A; reflexivity]). rewrite <- E. reflexivity.
    - destruct (N.eqb_spec h' space) as [->|N']; [|reflexivity]. exfalso. apply N. apply letter_lower in H as [L _].
      unfold demo_lower_char in L. change ((65 <=? space) && (space <=? 90))%N with false in L. cbn iota in L.
      destruct (N.leb_spec 65 h); destruct (N.leb_spec h 90); cbn [andb] in L; unfold space in *; lia. }
  rewrite <- Sp. destruct (h =? space)%N.
  - apply Forall2_app; [apply Fl, C|apply IH; constructor].
  - rewrite (proj2 (letter_lower _ _ H)). apply IH. constructor; assumption.
Qed.
Lemma tokenize_same s s' : same_text demo_ext s s' -> Forall2 tokens_same (demo_tokenize s) (demo_tokenize s').
Proof. intros F. apply tok_same; [exact F|constructor]. Qed.

Lemma regex_same p s s' : same_text demo_ext s s' -> case_regex p s = case_regex p s'.
Proof.
  intros F. unfold case_regex. rewrite <- (text_bytes _ _ F). pose proof (tokenize_same _ _ F) as T.
  revert T. generalize (demo_tokenize s) (demo_tokenize s'). intros ts ts' T.
  assert (V : map (fun t => map demo_lower_char (tk_value t)) ts = map (fun t => map demo_lower_char (tk_value t)) ts').
  { induction T as [|t t' ts ts' (_ & _ & H) T IH]; [reflexivity|]. cbn [map]. rewrite (text_lower _ _ H), IH. reflexivity. }
  rewrite <- V. destruct (list_eqb _ _ _); [|reflexivity]. do 2 f_equal. clear V. revert p.
  induction T as [|t t' ts ts' (R & _) T IH]; intros [|w p]; [reflexivity..|]. cbn [combine map fst snd]. rewrite R, IH. reflexivity.
Qed.

Lemma case_contract pairs shapes : case_blind demo_ext no_ngrams (case_loader pairs shapes).
Proof.
  split; [exact text_lower|]. split; [exact text_lower|]. split; [intros lg; exact tokenize_same|]. split; [|split; [|split]].
  - intros lg s s' F. cbn [x_tokenize_light demo_ext]. induction (tokenize_same _ _ F) as [|t t' ts ts' (_ & _ & H) T IH]; constructor; auto.
  - intros ws ws' n F. exact F.
  - intros c c' H D. apply letter_same; [exact H|]. unfold demo_lower_char.
    destruct (N.leb_spec 65 c); destruct (N.leb_spec c 90); cbn [andb]; lia.
  - intros p re s s' _ C F. cbn [ld_regex case_loader] in C. unfold case_compile in C.
    destruct (str_eqb p _); [injection C as <-; apply regex_same, F|]. destruct (str_eqb p _); [injection C as <-; apply regex_same, F|discriminate].
Qed.

(** ** The layout *)
Definition case_doc pairs shapes (c : string) : json := match sget $c (case_documents pairs shapes) with Some j => j | None => JNull end.
Lemma case_says pairs shapes {A} p name (d : orders -> decoder A) a :
  file_says (case_loader pairs shapes) home_orders home p name d a ->
  exists c j, In (c, j) (case_documents pairs shapes) /\ d (fun _ => id_order) j = Ok a.
Proof. intros (j & (c & _ & J) & D). exists c, j. split; [|exact D]. cbn [ld_json case_loader] in J. exact (hget_In str_eqb str_eqb_spec _ _ _ J). Qed.
Lemma case_holds pairs shapes {A} p name (d : orders -> decoder A) c j a :
  home (resolve (pjoin p name)) = Some (File c) -> sget c (case_documents pairs shapes) = Some j -> d (fun _ => id_order) j = Ok a ->
  file_says (case_loader pairs shapes) home_orders home p name d a.
Proof. intros F J H. exists j. split; [exists c; split; assumption|exact H]. Qed.

Lemma case_pairs shapes : no_cooccurrences (case_loader false shapes) home_orders home dir_e.
Proof.
  intros q m _ S. apply case_says in S as (c & j & J & D).
  assert (K : forallb (fun d => match d_featurizer (snd d) with Ok v => match snd v with None => true | _ => false end | _ => true end)
                (case_documents false shapes) = true) by (destruct shapes; vm_compute; reflexivity).
  rewrite forallb_forall in K. specialize (K _ J). cbn [snd] in K. rewrite D in K. destruct (snd m); [discriminate|reflexivity].
Qed.
Lemma case_no_shapes pairs : no_shapes (case_loader pairs false) home_orders home dir_e.
Proof.
  intros q m _ S. apply case_says in S as (c & j & J & D).
  assert (K : forallb (fun d => match d_filler (fun _ => id_order) (snd d) with Ok v => negb (smem $"shape_ngram" (map ff_name (sm_factories v))) | _ => true end)
                (case_documents pairs false) = true) by (destruct pairs; vm_compute; reflexivity).
  rewrite forallb_forall in K. specialize (K _ J). cbn [snd] in K. rewrite D in K. intros I. apply smem_spec in I. rewrite I in K. discriminate.
Qed.

Fixpoint flagless (p : str) : bool :=
  match p with
  | c :: r => match r with
              | d :: e :: _ => if ((c =? 40) && (d =? 63))%N then (e =? 80)%N || (e =? 58)%N else true
              | _ => true
              end && flagless r
  | [] => true
  end.
Lemma flagless_ok p : flagless p = true -> sets_no_flag p.
Proof.
  intros H a c b ->. induction a as [|d a IH].
  - apply andb_prop in H as [H _]. cbn in H. apply orb_prop in H as [H|H]; apply N.eqb_eq in H; auto.
  - apply IH. cbn [app flagless] in H. apply andb_prop in H as [_ H]. exact H.
Qed.
Lemma case_flags pairs shapes : no_flags (case_loader pairs shapes) home_orders home dir_e.
Proof.
  intros q m i patterns pattern _ [_ S] I1 I2. apply case_says in S as (c & j & J & D).
  assert (K : forallb (fun d => match d_deterministic (fun _ => id_order) (snd d) with
                               | Ok v => forallb (fun ps => forallb flagless (snd ps)) (dm_patterns v) | _ => true end)
                (case_documents pairs shapes) = true) by (destruct pairs, shapes; vm_compute; reflexivity).
  rewrite forallb_forall in K. specialize (K _ J). cbn [snd] in K. rewrite D in K. rewrite forallb_forall in K. specialize (K _ I1). cbn [snd] in K.
  rewrite forallb_forall in K. apply flagless_ok, K, I2.
Qed.

Definition case_model : EngineModel := home_model.
Lemma case_model_at pairs shapes : file_says (case_loader pairs shapes) home_orders home dir_e $"nlu_engine.json" d_engine case_model.
Proof. apply (case_holds pairs shapes _ _ _ $"E" (doc "E")); [vm_compute; reflexivity|destruct pairs, shapes; vm_compute; reflexivity|]. apply get_ok_eq. vm_compute. reflexivity. Qed.

(** Tables of the documents. *)
Lemma case_tables pairs shapes q t : rules_at (case_loader pairs shapes) home_orders home q (Table t) ->
  small_table t /\ lm_intents_names t = [$"lightOn"; $"setTemp"].
Proof.
  intros [_ S]. apply case_says in S as (c & j & J & D).
  assert (K : forallb (fun d => match d_lookup (fun _ => id_order) (snd d) with
                | Ok v => forallb (fun e : Z * (Z * list Z) => length (snd (snd e)) <=? 2) (lm_map v) && list_eqb str_eqb (lm_intents_names v) [$"lightOn"; $"setTemp"]
                | _ => true end) (case_documents pairs shapes) = true) by (destruct pairs, shapes; vm_compute; reflexivity).
  rewrite forallb_forall in K. specialize (K _ J). cbn [snd] in K. rewrite D in K. apply andb_prop in K as [K N].
  split; [|apply (list_eqb_spec str_eqb str_eqb_spec), N].
  intros h i ss I. rewrite forallb_forall in K. apply K in I. apply Nat.leb_le in I. cbn [snd] in I. lia.
Qed.
Lemma case_small pairs shapes : small_tables (case_loader pairs shapes) home_orders home dir_e case_model.
Proof. intros name t _ R. exact (proj1 (case_tables _ _ _ _ R)). Qed.
Lemma case_hardly pairs shapes input wl :
  tables_hardly_ambiguous demo_ext (case_loader pairs shapes) home_orders home dir_e case_model (en_resources (case_engine pairs shapes)) input wl.
Proof.
  intros name t _ R. apply (two_names _ $"lightOn" $"setTemp"). intros i (slots & l & _ & U).
  destruct U as (_ & g & j & _ & _ & _ & found & es & tt & _ & _ & _ & id & ids & _ & A & _). destruct A as [_ A].
  rewrite (proj2 (case_tables _ _ _ _ R)) in A. apply nth_error_In in A. destruct A as [A|[A|[]]]; auto.
Qed.

(** ** Texts *)
Lemma alike_map (s s' : str) : list_eqb (fun c c' => (c =? c')%N || ((demo_lower_char c =? demo_lower_char c')%N && (utf8_len c =? utf8_len c') && negb (c =? 931)%N && negb (c' =? 931)%N)) s s' = true ->
  same_text demo_ext s s'.
Proof.
  revert s'. induction s as [|c s IH]; intros [|c' s'] H; try discriminate; constructor.
  - cbn [list_eqb] in H. apply andb_prop in H as [H _]. apply orb_prop in H as [H|H]; [left; apply N.eqb_eq, H|right].
    apply andb_prop in H as [H H4]. apply andb_prop in H as [H H3]. apply andb_prop in H as [H1 H2]. apply N.eqb_eq in H1. apply Nat.eqb_eq in H2.
    apply negb_true_iff, N.eqb_neq in H3, H4. repeat split; auto. cbn [x_lower demo_ext map]. rewrite H1. reflexivity.
  - apply IH. cbn [list_eqb] in H. apply andb_prop in H as [_ H]. exact H.
Qed.

Lemma case_case :
  case_blind demo_ext no_ngrams (case_loader false false) /\
  same_text demo_ext $"turn on the living room now" $"TURN on thE livING Room now" /\
  load_case false false = Ok (case_engine false false) /\
  file_says (case_loader false false) home_orders home dir_e $"nlu_engine.json" d_engine case_model /\
  small_tables (case_loader false false) home_orders home dir_e case_model /\
  no_cooccurrences (case_loader false false) home_orders home dir_e /\
  no_shapes (case_loader false false) home_orders home dir_e /\ no_flags (case_loader false false) home_orders home dir_e /\
  forall input wl, tables_hardly_ambiguous demo_ext (case_loader false false) home_orders home dir_e case_model
                     (en_resources (case_engine false false)) input wl.
Proof.
  split; [apply case_contract|]. split; [apply alike_map; vm_compute; reflexivity|]. split; [apply case_eq|]. split; [apply case_model_at|].
  split; [apply case_small|]. split; [apply case_pairs|]. split; [apply case_no_shapes|]. split; [apply case_flags|]. apply case_hardly.
Qed.
Lemma case_answers :
  case_summary false false "light on in the kitchen" = (Some $"lightOn", [($"kitchen", (16, 23))]) /\
  case_summary false false "LIGHT on In the kitCHEN" = (Some $"lightOn", [($"kitCHEN", (16, 23))]) /\
  case_summary false false "please brighten  the  Kitchen" = (Some $"lightOn", [($"Kitchen", (22, 29))]) /\
  case_summary false false "PLEASE BRIGHTEN  THE  KITCHEN" = (Some $"lightOn", [($"KITCHEN", (22, 29))]) /\
  case_summary false false "turn on the living room now" = (Some $"lightOn", [($"living room", (12, 23))]) /\
  case_summary false false "TURN on thE livING Room now" = (Some $"lightOn", [($"livING Room", (12, 23))]).
Proof. repeat split; vm_compute; reflexivity. Qed.

(** ** The two exceptions *)
Lemma pairs_matter : exists x shape ngrams mx L fo uo f p m en input input' r r',
  case_blind x ngrams L /\ same_text x input input' /\ from_path x shape ngrams mx L fo uo f p = Ok en /\
  file_says L fo f p $"nlu_engine.json" d_engine m /\ small_tables L fo f p m /\ no_flags L fo f p /\
  (forall wl, tables_hardly_ambiguous x L fo f p m (en_resources en) input wl) /\ no_shapes L fo f p /\
  parse_with_alternatives x id_order id_order en input None None 0 0 = Ok r /\
  parse_with_alternatives x id_order id_order en input' None None 0 0 = Ok r' /\
  ir_name (ps_intent r) = Some $"lightOn" /\ ir_name (ps_intent r') = Some $"setTemp".
Proof.
  exists demo_ext, demo_shape, no_ngrams, demo_math, (case_loader true false), home_orders, home_orders, home, dir_e, case_model,
    (case_engine true false), $"turn on the kitchen now", $"Turn on the kitchen now",
    (case_answer true false "turn on the kitchen now"), (case_answer true false "Turn on the kitchen now").
  split; [apply case_contract|]. split; [apply alike_map; vm_compute; reflexivity|]. split; [apply case_eq|]. split; [apply case_model_at|].
  split; [apply case_small|]. split; [apply case_flags|]. split; [intros; apply case_hardly|]. split; [apply case_no_shapes|].
  split; [apply get_ok_eq; vm_compute; reflexivity|]. split; [apply get_ok_eq; vm_compute; reflexivity|].
  split; vm_compute; reflexivity.
Qed.
Lemma shapes_matter : exists x shape ngrams mx L fo uo f p m en input input' i r r',
  case_blind x ngrams L /\ same_text x input input' /\ from_path x shape ngrams mx L fo uo f p = Ok en /\
  file_says L fo f p $"nlu_engine.json" d_engine m /\ small_tables L fo f p m /\ no_flags L fo f p /\
  (forall wl, tables_hardly_ambiguous x L fo f p m (en_resources en) input wl) /\ no_cooccurrences L fo f p /\
  get_slots_with_alternatives x en input i 0 = Ok r /\ get_slots_with_alternatives x en input' i 0 = Ok r' /\
  length r = 0 /\ length r' = 1.
Proof.
  exists demo_ext, demo_shape, no_ngrams, demo_math, (case_loader false true), home_orders, home_orders, home, dir_e, case_model,
    (case_engine false true), $"turn on the kitchen now", $"turn on the Kitchen now", $"lightOn",
    (get_ok [] (get_slots_with_alternatives demo_ext (case_engine false true) $"turn on the kitchen now" $"lightOn" 0)),
    (get_ok [] (get_slots_with_alternatives demo_ext (case_engine false true) $"turn on the Kitchen now" $"lightOn" 0)).
  split; [apply case_contract|]. split; [apply alike_map; vm_compute; reflexivity|]. split; [apply case_eq|]. split; [apply case_model_at|].
  split; [apply case_small|]. split; [apply case_flags|]. split; [intros; apply case_hardly|]. split; [apply case_pairs|].
  split; [apply get_ok_eq; vm_compute; reflexivity|]. split; [apply get_ok_eq; vm_compute; reflexivity|].
  split; vm_compute; reflexivity.
Qed.

(** Intent alternatives, each with its number of slots. *)
Definition case_alternatives_of (s : string) : list (option str * nat) :=
  map (fun a => (ir_name (al_intent a), length (al_slots a)))
    (ps_alternatives (get_ok no_result (parse_with_alternatives demo_ext id_order id_order (case_engine false false) $s None None 2 0))).
Lemma case_alternatives_case : no_ties id_order (case_engine false false) $"please brighten  the  Kitchen" /\
  case_alternatives_of "please brighten  the  Kitchen" = [(Some $"setTemp", 0); (None, 0)] /\
  case_alternatives_of "PLEASE BRIGHTEN  THE  KITCHEN" = [(Some $"setTemp", 0); (None, 0)].
Proof. split; [apply distinct_no_ties; vm_compute; reflexivity|]. split; vm_compute; reflexivity. Qed.
