(** Small deterministic and lookup parsers, for the examples. Not part of the model of
    the repository. *)
From Coq Require Import String List NArith ZArith Bool Arith Lia.
From Verif Require Import Base Sorting F32 M_Types M_Utils M_Det M_Lookup S_Base S_Utils S_Det S_Rules
  S_Rank P_Base P_F32 P_Engine Demo P_Demo.
Import ListNotations.

(** A pattern is a list of words, some of them named groups; it matches a text that
    consists of these words. *)
Definition demo_pattern := list (option str * str).
Definition demo_regex (p : demo_pattern) : Regex := fun s =>
  let ts := demo_tokenize s in
  if list_eqb str_eqb (map tk_value ts) (map snd p)
  then Some ((None, Some (0, byte_len s)) :: map (fun ct => (fst (fst ct), Some (tk_range (snd ct)))) (combine p ts))
  else None.

Definition demo_patterns : list (str * demo_pattern) :=
  [($"light", [(None, $"light"); (None, $"on"); (None, $"in"); (Some $"group0", $"%ROOM%")]);
   ($"temp", [(None, $"set"); (Some $"group0", $"%ROOM%"); (None, $"to"); (Some $"group1", $"%SNIPS/NUMBER%")]);
   ($"any", [(None, $"set"); (Some $"group0", $"%ROOM%"); (None, $"to"); (Some $"group1", $"%SNIPS/NUMBER%")]);
   ($"w0", [(None, $"a"); (None, $"b"); (None, $"c"); (None, $"d"); (None, $"e")]);
   ($"w1", [(Some $"g0", $"a"); (None, $"b"); (None, $"c"); (None, $"d"); (None, $"e")]);
   ($"w5", [(Some $"g0", $"a"); (Some $"g1", $"b"); (Some $"g2", $"c"); (Some $"g3", $"d"); (Some $"g4", $"e")])].
Definition demo_compile (p : str) : outcome Regex :=
  match sget p demo_patterns with Some w => Ok (demo_regex w) | None => Err EOther end.
Definition demo_lang (s : str) : option lang := if str_eqb s $"en" then Some EN else None.

Definition demo_det_model : DetModel :=
  mkDM $"en" [($"lightOn", [$"light"]); ($"setTemp", [$"temp"]); ($"other", [$"any"])]
       [($"group0", $"room"); ($"group1", $"degrees")]
       [($"lightOn", [($"room", $"room")]);
        ($"setTemp", [($"room", $"room"); ($"degrees", $"snips/number")]);
        ($"other", [($"room", $"room"); ($"degrees", $"snips/number")])]
       [] true.

Definition dummy_dp : DetParser := mkDP EN [] [] [] [] [] [] demo_res.
Definition demo_dp : DetParser :=
  get_ok dummy_dp (det_new demo_ext demo_lang demo_compile id_order id_order id_order demo_det_model demo_res).

Definition light_text : str := $"light on in the kitchen".
Definition temp_text : str := $"please set bedroom to 21".

(** A model whose five intents match the text "a b c d e" with 0, 1, 5, 5 and 5 slots. *)
Definition five_slots : list (str * str) :=
  [($"s0", $"e"); ($"s1", $"e"); ($"s2", $"e"); ($"s3", $"e"); ($"s4", $"e")].
Definition five_model : DetModel :=
  mkDM $"en" [($"i0", [$"w0"]); ($"i1", [$"w1"]); ($"i2", [$"w5"]); ($"i3", [$"w5"]); ($"i4", [$"w5"])]
       [($"g0", $"s0"); ($"g1", $"s1"); ($"g2", $"s2"); ($"g3", $"s3"); ($"g4", $"s4")]
       [($"i0", five_slots); ($"i1", five_slots); ($"i2", five_slots); ($"i3", five_slots); ($"i4", five_slots)]
       [] true.
Definition five_dp (o : HashOrder) : DetParser :=
  get_ok dummy_dp (det_new demo_ext demo_lang demo_compile id_order id_order o five_model demo_res).

Definition no_ipr : InternalParsingResult := no_intent.

(** A lookup table for the same intents. *)
Definition demo_table (bad : Z) : list (Z * (Z * list Z)) :=
  [(demo_hash $"light on in %room%", (0%Z, [0%Z]));
   (demo_hash $"set %room% to %snips/number%", (1%Z, [0%Z; 1%Z]));
   (demo_hash $"broken", (bad, []))].
Definition demo_lp (bad : Z) : LookupParser :=
  mkLP EN [$"room"; $"degrees"] [$"lightOn"; $"setTemp"] (demo_table bad) [$"the"; $"please"] []
       [mkGS [$"lightOn"] (mkES [] [$"room"]); mkGS [$"setTemp"] (mkES [$"snips/number"] [$"room"])] demo_res.

(** ** The contracts hold of these instances. *)
Lemma demo_custom_ok voc s : custom_parser_ok (demo_custom voc) s.
Proof.
  intros f n es H e He. unfold demo_custom in H. inv H.
  apply in_flat_map in He as (t & Ht & He). apply in_flat_map in He as (v & _ & He).
  destruct (str_eqb _ _ && _); [|contradiction]. destruct He as [<-|[]]. simpl.
  destruct (demo_tokenizer_ok EN s) as [T _]. apply (T t). exact Ht.
Qed.

Lemma demo_builtin_ok s : builtin_parser_ok demo_builtin s.
Proof.
  intros f u n es H e He. unfold demo_builtin in H.
  assert (K := f_equal (get_ok []) H). unfold get_ok in K. rewrite <- K in He. clear H K.
  apply in_flat_map in He as (t & Ht & He).
  destruct (forallb _ _ && _); [|contradiction]. destruct He as [<-|[]]. simpl.
  destruct (demo_tokenizer_ok EN s) as [T _]. apply (T t). exact Ht.
Qed.

Lemma demo_regex_ok p : regex_ok (demo_regex p).
Proof.
  intros s caps H n rg Hin. unfold demo_regex in H.
  destruct (list_eqb _ _ _); [|discriminate]. inv H. destruct Hin as [E|Hin].
  - inv E. exists 0, (length s). rewrite firstn_all. repeat split; simpl; lia.
  - apply in_map_iff in Hin as ([c t] & E & Hin). inv E. apply in_combine_r in Hin.
    destruct (demo_tokenizer_ok EN s) as [T _]. destruct (T t Hin) as ([W1 W2] & _ & ->).
    exists (rstart (tk_char_range t)), (rend (tk_char_range t)). repeat split; auto; lia.
Qed.

Lemma five_intents_order : exists x lang_of compile o3 o3' m res input dp dp' r r',
  det_new x lang_of compile id_order id_order o3 m res = Ok dp /\
  det_new x lang_of compile id_order id_order o3' m res = Ok dp' /\
  det_parse x id_order dp input None = Ok r /\ det_parse x id_order dp' input None = Ok r' /\
  ir_name (pr_intent r) = Some $"i0" /\ ir_name (pr_intent r') = None.
Proof.
  exists demo_ext, demo_lang, demo_compile, id_order, rev_order, five_model, demo_res, $"a b c d e",
    (five_dp id_order), (five_dp rev_order), (get_ok no_ipr (det_parse demo_ext id_order (five_dp id_order) $"a b c d e" None)),
    (get_ok no_ipr (det_parse demo_ext id_order (five_dp rev_order) $"a b c d e" None)).
  split; [apply get_ok_eq; vm_compute; reflexivity|].
  split; [apply get_ok_eq; vm_compute; reflexivity|].
  split; [apply get_ok_eq; vm_compute; reflexivity|].
  split; [apply get_ok_eq; vm_compute; reflexivity|].
  split; vm_compute; reflexivity.
Qed.
