(** The unit tests of src/intent_parser/lookup_intent_parser.rs:386-1435, replayed on the
    model, under two iteration orders of the hash maps.  Left out: [test_load_from_path],
    which is in Tests_Beverage. *)
From Coq Require Import String List NArith ZArith Bool Arith.
From Verif Require Import Base Sorting F32 M_Types M_Utils M_Engine M_Det M_Lookup Demo Tests_Base.
Import ListNotations.
Local Open Scope list_scope.
Local Open Scope nat_scope.

Definition h (s : str) : Z := x_hash test_ext s.
Definition scope (intents builtin custom : list str) : GroupedScope :=
  mkGS intents (mkES builtin custom).

(** [LookupIntentParser::new(model, shared_resources).unwrap()] then a call, for both orders. *)
Definition with_lookup (slots intents : list str) (map : list (Z * (Z * list Z)))
    (scopes : list GroupedScope) (whitelist : list (str * list str)) (ignore : bool)
    (res : Resources) (check : HashOrder -> LookupParser -> bool) : bool :=
  forallb (fun o =>
    match lookup_new test_lang o (mkLM $"en" slots intents map scopes whitelist ignore) res with
    | Ok p => check o p
    | _ => false
    end) [id_order; rev_order].

Definition parses (text : str) (intents : option (list str)) (expected : InternalParsingResult)
    (o : HashOrder) (p : LookupParser) : bool :=
  ok_eqb parsing_eqb (lookup_parse test_ext o p text intents) expected.

Definition result (intent : option str) (score : f32) (slots : list InternalSlot) :=
  mkIPR (mkIR intent score) slots.
Definition no_mocks : Resources := test_resources [] [] [].

Definition two_intents (ignore : bool) (res : Resources) :=
  with_lookup [] [ $"intent1"; $"intent2" ]
    [(h $"foo bar baz", (0%Z, [])); (h $"foo bar ban", (1%Z, []))]
    [scope [ $"intent1"; $"intent2" ] [] []] [] ignore res.

Example test_parse_intent :
  two_intents false no_mocks (parses $"foo bar ban" None (result (Some $"intent2") f1 [])) = true.
Proof. vm_compute. reflexivity. Qed.

Example test_parse_intent_with_filter :
  two_intents false no_mocks (parses $"foo bar ban" (Some [ $"intent1" ]) (result None f1 [])) = true.
Proof. vm_compute. reflexivity. Qed.

Example test_parse_intent_with_stop_words :
  two_intents true (test_resources [] [] [ $"hey"; $"please" ])
    (parses $"hey foo bar please ban" None (result (Some $"intent2") f1 [])) = true.
Proof. vm_compute. reflexivity. Qed.

Definition number (v : str) (a b : nat) : BuiltinEntity :=
  mkBE v (a, b) (SVBuiltin $"1") [] $"snips/number".

Example test_parse_intent_with_duplicated_slot_names :
  with_lookup [ $"number" ] [ $"math_operation" ]
    [(h $"what is % snipsnumber % plus % snipsnumber %", (0%Z, [0%Z; 0%Z]))]
    [scope [ $"math_operation" ] [ $"snips/number" ] []] [] false
    (test_resources [($"what is one plus one", [number $"one" 8 11; number $"one" 17 20])] [] [])
    (parses $"what is one plus one" None
       (result (Some $"math_operation") f1
          [mkIS $"one" (8, 11) $"snips/number" $"number";
           mkIS $"one" (17, 20) $"snips/number" $"number"])) = true.
Proof. vm_compute. reflexivity. Qed.

Definition custom (v r : str) (a b : nat) (e : str) : CustomEntity := mkCE v r [] (a, b) e.

Example test_parse_intent_with_ambivalent_words :
  with_lookup [ $"name" ] [ $"give_flower" ]
    [(h $"give a rose to % name %", (0%Z, [0%Z])); (h $"give a daisy to % name %", (0%Z, [0%Z]));
     (h $"give a tulip to % name %", (0%Z, [0%Z]))]
    [scope [ $"give_flower" ] [] [ $"name" ]] [] false
    (test_resources [] [($"give a daisy to emily",
       [custom $"daisy" $"daisy" 7 12 $"name"; custom $"emily" $"emily" 16 21 $"name"])] [])
    (parses $"give a daisy to emily" None
       (result (Some $"give_flower") f1 [mkIS $"emily" (16, 21) $"name" $"name"])) = true.
Proof. vm_compute. reflexivity. Qed.

Definition time (v : str) (a b : nat) : BuiltinEntity :=
  mkBE v (a, b) (SVBuiltin v) [] $"snips/datetime".

Example test_very_ambiguous_utterances_should_not_be_parsed :
  with_lookup [ $"event"; $"time" ] [ $"intent1"; $"intent2" ]
    [(h $"% event % tomorrow", (0%Z, [0%Z])); (h $"call % snipsdatetime %", (1%Z, [1%Z]))]
    [scope [ $"intent1" ] [] [ $"event" ]; scope [ $"intent2" ] [ $"snips/datetime" ] []] [] true
    (mkRes (filtered_builtin $"call tomorrow" [time $"tomorrow" 5 13])
           (filtered_custom $"call tomorrow" [custom $"call" $"call" 0 4 $"event"]) [] None [] [])
    (parses $"call tomorrow" None (result None f1 [])) = true.
Proof. vm_compute. reflexivity. Qed.

Example test_slightly_ambiguous_utterances_should_be_parsed :
  with_lookup [ $"time" ] [ $"intent1"; $"intent2" ]
    [(h $"call tomorrow", (0%Z, [])); (h $"call % snipsdatetime %", (1%Z, [0%Z]))]
    [scope [ $"intent1" ] [] []; scope [ $"intent2" ] [ $"snips/datetime" ] []] [] true
    (mkRes (filtered_builtin $"call tomorrow" [time $"tomorrow" 5 13]) (mocked_custom [])
           [] None [] [])
    (parses $"call tomorrow" None (result (Some $"intent1") (f_of 2 3) [])) = true.
Proof. vm_compute. reflexivity. Qed.

Definition meeting : str := $"meeting with John at Snips either this afternoon or tomorrow".
Definition meeting_resources : Resources :=
  test_resources [(meeting, [time $"this afternoon" 34 48; time $"tomorrow" 52 60])]
    [(meeting, [custom $"john" $"John" 13 17 $"name"; custom $"snips" $"Snips" 21 26 $"location"])] [].
Definition meeting_slots : list InternalSlot :=
  [mkIS $"John" (13, 17) $"name" $"name";
   mkIS $"Snips" (21, 26) $"location" $"location";
   mkIS $"this afternoon" (34, 48) $"snips/datetime" $"time";
   mkIS $"tomorrow" (52, 60) $"snips/datetime" $"time"].

Example test_parse_slots :
  with_lookup [ $"name"; $"location"; $"time" ] [ $"intent1" ]
    [(h $"meeting with % name % at % location % either % snipsdatetime % or % snipsdatetime %",
      (0%Z, [0%Z; 1%Z; 2%Z; 2%Z]))]
    [scope [ $"intent1" ] [ $"snips/datetime" ] [ $"name"; $"location" ]] [] true meeting_resources
    (parses meeting None (result (Some $"intent1") f1 meeting_slots)) = true.
Proof. vm_compute. reflexivity. Qed.

Definition search_resources : Resources :=
  test_resources [] [($"search this", [custom $"this" $"this" 7 11 $"object"]);
                     ($"search that", [custom $"that" $"that" 7 11 $"object"])]
    [ $"the"; $"a"; $"this"; $"that" ].

Example test_parse_stop_words_slots :
  with_lookup [ $"object" ] [ $"search" ]
    [(h $"search", (0%Z, [])); (h $"search % object %", (0%Z, [0%Z]))]
    [scope [ $"search" ] [] [ $"object" ]] [($"search", [ $"this"; $"that" ])] true search_resources
    (parses $"search this" None
       (result (Some $"search") f1 [mkIS $"this" (7, 11) $"object" $"object"])) = true.
Proof. vm_compute. reflexivity. Qed.

(** [1. / (1. + 1. / 2. + 1. / 3.)] and its companions, computed in [f32] as in the test. *)
Definition third : f32 := f_of 1 3.
Definition half : f32 := f_of 1 2.
Definition total : f32 := fadd (fadd f1 half) third.
Definition greetings : list IntentResult :=
  [mkIR (Some $"greeting1") (fdiv f1 total); mkIR (Some $"greeting2") (fdiv half total);
   mkIR (Some $"greeting3") (fdiv third total); mkIR None f0].
Definition greeting_resources : Resources :=
  mkRes (mocked_builtin [])
    (filtered_custom $"Hello John" [custom $"Hello" $"Hello" 0 5 $"greeting";
                                    custom $"John" $"John" 6 10 $"name"]) [] None [] [].

Example test_get_intents :
  with_lookup [ $"name"; $"greeting" ] [ $"greeting1"; $"greeting2"; $"greeting3" ]
    [(h $"hello john", (0%Z, [])); (h $"hello % name %", (1%Z, [0%Z]));
     (h $"% greeting % % name %", (2%Z, [1%Z; 0%Z]))]
    [scope [ $"greeting1" ] [] []; scope [ $"greeting2" ] [] [ $"name" ];
     scope [ $"greeting3" ] [] [ $"name"; $"greeting" ]] [] true greeting_resources
    (fun o p => ok_eqb (list_eqb intent_eqb) (lookup_get_intents test_ext o p $"Hello John") greetings)
  = true.
Proof. vm_compute. reflexivity. Qed.

Definition oreilly : str := $"John O" ++ [8217%N] ++ $"reilly".
Definition with_oreilly : str := $"meeting with " ++ oreilly.

Example test_parse_slots_with_special_tokenized_out_characters :
  with_lookup [ $"name" ] [ $"intent1" ] [(h $"meeting with % name %", (0%Z, [0%Z]))]
    [scope [ $"intent1" ] [] [ $"name" ]] [] true
    (test_resources [] [(with_oreilly, [custom oreilly oreilly 13 26 $"name"])] [])
    (parses with_oreilly None
       (result (Some $"intent1") f1 [mkIS oreilly (13, 26) $"name" $"name"])) = true.
Proof. vm_compute. reflexivity. Qed.

Definition hello_resources : Resources :=
  test_resources [] [($"Hello John", [custom $"John" $"John" 6 10 $"name"])] [].

Example test_get_slots :
  with_lookup [ $"name" ] [ $"greeting"; $"other_intent" ] [(h $"hello % name %", (0%Z, [0%Z]))]
    [scope [ $"greeting" ] [] [ $"name" ]; scope [ $"other_intent" ] [] []] [] false hello_resources
    (fun o p =>
       ok_eqb (list_eqb slot_eqb) (lookup_get_slots test_ext o p $"Hello John" $"greeting")
         [mkIS $"John" (6, 10) $"name" $"name"]
       && ok_eqb (list_eqb slot_eqb) (lookup_get_slots test_ext o p $"Hello John" $"other_intent") [])
  = true.
Proof. vm_compute. reflexivity. Qed.

Example test_replace_entities_with_placeholders :
  replace_entities_with_placeholders test_ext $"the third album of Blink 182 is great"
    [mkME (0, 9) $"snips/ordinal"; mkME (19, 28) $"snips/musicArtist"]
  = $"%SNIPSORDINAL% album of %SNIPSMUSICARTIST% is great".
Proof. vm_compute. reflexivity. Qed.

Example test_get_builtin_entity_name :
  get_entity_placeholder test_ext $"snips/datetime" = $"%SNIPSDATETIME%".
Proof. vm_compute. reflexivity. Qed.

Example test_get_combinations :
  get_items_combinations [3; 0; 5] = [[]; [3; 0; 5]; [3; 0]; [3; 5]; [0; 5]; [3]; [0]; [5]].
Proof. vm_compute. reflexivity. Qed.
