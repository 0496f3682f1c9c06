(** The unit tests of src/intent_parser/deterministic_intent_parser.rs:428-1436, replayed
    on the model, under two iteration orders of the hash maps.  Left out:
    [test_load_from_path], which is in Tests_Beverage. *)
From Coq Require Import String List NArith ZArith Bool Arith.
From Verif Require Import Base Sorting F32 M_Types M_Utils M_Engine M_Det Demo Tests_Base Tests_Lookup.
Import ListNotations.
Local Open Scope list_scope.
Local Open Scope nat_scope.

(** A matcher for the patterns of these tests, in place of the crate regex: the anchors,
    [\s*], [\s], a named group around a literal, literal characters compared without case.
    A pattern is a list of pieces. *)
Inductive piece := PSpaces | PSpace | PChar (c : char) | POpen (name : str) | PClose | PEnd.

(** The piece list of a pattern; [n]: enough steps.  "(?P<" opens a group, ">" ends its name. *)
Fixpoint until_gt (s : str) : str * str :=
  match s with
  | [] => ([], [])
  | c :: r => if (c =? 62)%N then ([], r) else let '(a, b) := until_gt r in (c :: a, b)
  end.
Fixpoint pieces (n : nat) (s : str) : list piece :=
  match n with
  | 0 => []
  | S n =>
      match s with
      | [] => []
      | 94%N :: r => pieces n r
      | 36%N :: r => PEnd :: pieces n r
      | 92%N :: 115%N :: 42%N :: r => PSpaces :: pieces n r
      | 92%N :: 115%N :: r => PSpace :: pieces n r
      | 40%N :: 63%N :: 80%N :: 60%N :: r =>
          let '(name, rest) := until_gt r in POpen name :: pieces n rest
      | 41%N :: r => PClose :: pieces n r
      | c :: r => PChar c :: pieces n r
      end
  end.

Fixpoint drop_spaces (s : str) (b : nat) : str * nat :=
  match s with
  | c :: r => if (c =? 32)%N then drop_spaces r (b + 1) else (s, b)
  | [] => (s, b)
  end.

(** [b]: byte offset; [open]: the group being matched. *)
Fixpoint run_pieces (ps : list piece) (s : str) (b : nat) (open : option (str * nat))
    : option (list (option str * option range)) :=
  match ps with
  | [] => Some []
  | PSpaces :: ps => let '(r, b') := drop_spaces s b in run_pieces ps r b' open
  | PSpace :: ps => match s with
                    | c :: r => if (c =? 32)%N then run_pieces ps r (b + 1) open else None
                    | [] => None
                    end
  | PChar p :: ps => match s with
                     | c :: r => if (demo_lower_char p =? demo_lower_char c)%N
                                 then run_pieces ps r (b + utf8_len c) open else None
                     | [] => None
                     end
  | POpen n :: ps => run_pieces ps s b (Some (n, b))
  | PClose :: ps => match open with
                    | Some (n, a) => option_map (cons (Some n, Some (a, b))) (run_pieces ps s b None)
                    | None => None
                    end
  | PEnd :: ps => match s with [] => run_pieces ps s b open | _ => None end
  end.

Definition test_compile (pattern : str) : outcome Regex :=
  Ok (fun text => option_map (cons (None, Some (0, byte_len text)))
                    (run_pieces (pieces (length pattern) pattern) text 0 None)).

(** [DeterministicIntentParser::new(model, shared_resources).unwrap()] then a call. *)
Definition with_det (patterns : list (str * list str)) (groups : list (str * str))
    (slots : list (str * list (str * str))) (ignore : bool) (whitelist : list (str * list str))
    (res : Resources) (check : HashOrder -> DetParser -> bool) : bool :=
  forallb (fun o =>
    match det_new test_ext test_lang test_compile o o o
            (mkDM $"en" patterns groups slots whitelist ignore) res with
    | Ok p => check o p
    | _ => false
    end) [id_order; rev_order].

Definition det_parses (text : str) (intents : option (list str)) (expected : InternalParsingResult)
    (o : HashOrder) (p : DetParser) : bool :=
  ok_eqb parsing_eqb (det_parse test_ext o p text intents) expected.

Definition two_patterns (ignore : bool) (res : Resources) :=
  with_det [($"intent1", [ $"^\s*foo\s*bar\s*baz\s*$" ]); ($"intent2", [ $"^\s*foo\s*bar\s*ban\s*$" ])]
    [] [($"intent1", []); ($"intent2", [])] ignore [] res.

Example test_parse_intent :
  two_patterns false no_mocks (det_parses $"foo bar ban" None (result (Some $"intent2") f1 [])) = true.
Proof. vm_compute. reflexivity. Qed.

Example test_parse_intent_with_filter :
  two_patterns false no_mocks
    (det_parses $"foo bar ban" (Some [ $"intent1" ]) (result None f1 [])) = true.
Proof. vm_compute. reflexivity. Qed.

Example test_parse_intent_with_stop_words :
  two_patterns true (test_resources [] [] [ $"hey"; $"please" ])
    (det_parses $"hey foo bar please ban" None (result (Some $"intent2") f1 [])) = true.
Proof. vm_compute. reflexivity. Qed.

Example test_parse_utterance_with_duplicated_slot_names :
  with_det
    [($"math_operation",
      [ $"^\s*what\s*is\s*(?P<group0>%SNIPSNUMBER%)\s*plus\s*(?P<group0_2>%SNIPSNUMBER%)\s*$" ])]
    [($"group0", $"number")] [($"math_operation", [($"number", $"snips/number")])] true []
    (test_resources [($"what is one plus one", [number $"one" 8 11; number $"one" 17 20])] [] [])
    (det_parses $"what is one plus one" None
       (result (Some $"math_operation") f1
          [mkIS $"one" (8, 11) $"snips/number" $"number";
           mkIS $"one" (17, 20) $"snips/number" $"number"])) = true.
Proof. vm_compute. reflexivity. Qed.

Example test_very_ambiguous_utterances_should_not_be_parsed :
  with_det
    [($"intent1", [ $"^\s*(?P<group0>%EVENT%)\s*tomorrow\s*$" ]);
     ($"intent2", [ $"^\s*call\s(?P<group1>%SNIPSDATETIME%)\s*$" ])]
    [($"group0", $"event"); ($"group1", $"time")]
    [($"intent1", [($"event", $"event")]); ($"intent2", [($"time", $"snips/datetime")])] true []
    (mkRes (filtered_builtin $"call tomorrow" [time $"tomorrow" 5 13])
           (filtered_custom $"call tomorrow" [custom $"call" $"call" 0 4 $"event"]) [] None [] [])
    (det_parses $"call tomorrow" None (result None f1 [])) = true.
Proof. vm_compute. reflexivity. Qed.

Example test_slightly_ambiguous_utterances_should_be_parsed :
  with_det
    [($"intent1", [ $"^\s*call\s*tomorrow\s*$" ]);
     ($"intent2", [ $"^\s*call\s(?P<group0>%SNIPSDATETIME%)\s*$" ])]
    [($"group0", $"time")] [($"intent1", []); ($"intent2", [($"time", $"snips/datetime")])] true []
    (mkRes (filtered_builtin $"call tomorrow" [time $"tomorrow" 5 13]) (mocked_custom [])
           [] None [] [])
    (det_parses $"call tomorrow" None (result (Some $"intent1") (f_of 2 3) [])) = true.
Proof. vm_compute. reflexivity. Qed.

Example test_parse_slots :
  with_det
    [($"intent1",
      [ $"^\s*meeting\s*with\s*(?P<group0>%NAME%)\s*at\s*(?P<group1>%LOCATION%)\s*either\s*(?P<group2>%SNIPSDATETIME%)\s*or\s*(?P<group2_2>%SNIPSDATETIME%)\s*$" ])]
    [($"group0", $"name"); ($"group1", $"location"); ($"group2", $"time")]
    [($"intent1", [($"name", $"name"); ($"location", $"location"); ($"time", $"snips/datetime")])]
    true [] meeting_resources
    (det_parses meeting None (result (Some $"intent1") f1 meeting_slots)) = true.
Proof. vm_compute. reflexivity. Qed.

Example test_parse_stop_words_slots :
  with_det [($"search", [ $"^\s*search\s*$"; $"^\s*search\s*(?P<group0>%OBJECT%)\s*$" ])]
    [($"group0", $"object")] [($"search", [($"object", $"object")])] true
    [($"search", [ $"this"; $"that" ])] search_resources
    (det_parses $"search this" None
       (result (Some $"search") f1 [mkIS $"this" (7, 11) $"object" $"object"])) = true.
Proof. vm_compute. reflexivity. Qed.

Example test_get_intents :
  with_det
    [($"greeting1", [ $"^\s*hello\s*john\s*$" ]);
     ($"greeting2", [ $"^\s*hello\s*(?P<group0>%NAME%)\s*$" ]);
     ($"greeting3", [ $"^\s*(?P<group1>%GREETING%)\s*(?P<group0>%NAME%)\s*$" ])]
    [($"group0", $"name"); ($"group1", $"greeting")]
    [($"greeting1", []); ($"greeting2", [($"name", $"name")]);
     ($"greeting3", [($"name", $"name"); ($"greeting", $"greeting")])] true [] greeting_resources
    (fun o p => ok_eqb (list_eqb intent_eqb) (det_get_intents test_ext o p $"Hello John") greetings)
  = true.
Proof. vm_compute. reflexivity. Qed.

Definition uber : str := [252%N] ++ $"ber".
Definition hello_uber : str := $"Hello " ++ uber ++ $" John".

Example test_parse_slots_with_non_ascii_chars :
  with_det [($"greeting", [ $"^\s*hello\s*" ++ uber ++ $"\s*(?P<group0>%NAME%)\s*$" ])]
    [($"group0", $"name")] [($"greeting", [($"name", $"name")])] true []
    (test_resources [] [(hello_uber, [custom $"John" $"John" 11 15 $"name"])] [])
    (fun o p => match det_parse test_ext o p hello_uber None with
                | Ok r => list_eqb slot_eqb (pr_slots r) [mkIS $"John" (11, 15) $"name" $"name"]
                | _ => false
                end) = true.
Proof. vm_compute. reflexivity. Qed.

Example test_parse_slots_with_special_tokenized_out_characters :
  with_det [($"intent1", [ $"^\s*meeting\s*with\s*(?P<group0>%NAME%)\s*$" ])]
    [($"group0", $"name")] [($"intent1", [($"name", $"name")])] true []
    (test_resources [] [(with_oreilly, [custom oreilly oreilly 13 26 $"name"])] [])
    (det_parses with_oreilly None
       (result (Some $"intent1") f1 [mkIS oreilly (13, 26) $"name" $"name"])) = true.
Proof. vm_compute. reflexivity. Qed.

Example test_get_slots :
  with_det [($"greeting", [ $"^\s*hello\s*(?P<group0>%NAME%)\s*$" ]); ($"other_intent", [])]
    [($"group0", $"name")] [($"greeting", [($"name", $"name")]); ($"other_intent", [])] true []
    hello_resources
    (fun o p =>
       ok_eqb (list_eqb slot_eqb) (det_get_slots test_ext o p $"Hello John" $"greeting")
         [mkIS $"John" (6, 10) $"name" $"name"]
       && ok_eqb (list_eqb slot_eqb) (det_get_slots test_ext o p $"Hello John" $"other_intent") [])
  = true.
Proof. vm_compute. reflexivity. Qed.

Example test_deduplicate_overlapping_slots :
  deduplicate_overlapping_slots test_ext EN
    [mkIS $"kid" (0, 3) $"e1" $"s1"; mkIS $"loco" (4, 8) $"e1" $"s2";
     mkIS $"kid loco" (0, 8) $"e1" $"s3"; mkIS $"song" (9, 13) $"e2" $"s4"]
  = [mkIS $"kid loco" (0, 8) $"e1" $"s3"; mkIS $"song" (9, 13) $"e2" $"s4"].
Proof. vm_compute. reflexivity. Qed.

Example test_replace_entities :
  replace_entities $"the third album of Blink 182 is great"
    [mkME (0, 9) $"snips/ordinal"; mkME (25, 28) $"snips/number"; mkME (19, 28) $"snips/musicArtist"]
    (get_entity_placeholder test_ext)
  = ([((0, 14), (0, 9)); ((24, 42), (19, 28))],
     $"%SNIPSORDINAL% album of %SNIPSMUSICARTIST% is great").
Proof. vm_compute. reflexivity. Qed.

Example test_get_builtin_entity_name :
  get_entity_placeholder test_ext $"snips/datetime" = $"%SNIPSDATETIME%".
Proof. vm_compute. reflexivity. Qed.

Example test_get_range_shift :
  forallb (fun o => Z.eqb (get_range_shift (6, 7) (reorder o [((2, 5), (2, 4)); ((8, 9), (7, 11))])) (-1)
                    && Z.eqb (get_range_shift (12, 13) (reorder o [((2, 5), (2, 4)); ((8, 9), (7, 11))])) 2)
    [id_order; rev_order] = true.
Proof. vm_compute. reflexivity. Qed.
