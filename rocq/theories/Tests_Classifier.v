(** The unit tests of src/intent_classifier/logreg.rs:60-104, featurizer.rs:415-919 and
    log_reg_intent_classifier.rs:166-418, replayed on the model.  Left out:
    [test_load_from_path] of the last file, which is in Tests_Beverage.  The sample classifier
    takes its entity parsers from a directory too; here the number is found by a double. *)
From Coq Require Import String List NArith ZArith Bool Arith.
From Verif Require Import Base Sorting F32 M_Types M_Utils M_Engine M_Det M_Res M_Feat M_Prob Demo
  Tests_Base Tests_Features.
Import ListNotations.
Local Open Scope list_scope.
Local Open Scope nat_scope.

(** Matrix products by summation from left to right. *)
Definition test_math : Math :=
  mkMath (fun row m j => fsum (map (fun p => fmul (fst p) (nth j (snd p) f0)) (combine row m))) test_exp.

Definition close (m : outcome (list f32)) (expected : list f32) : bool :=
  match m with
  | Ok l => (length l =? length expected)
            && forallb (fun p => epsilon_eq (dec 1 6) (fst p) (snd p)) (combine l expected)
  | _ => false
  end.

(** ** logreg.rs *)

(** [MulticlassLogisticRegression::new(intercept, weights)]: the weights are given by feature. *)
Definition regression (intercept : list f32) (weights : list (list f32)) : Logreg :=
  mkLR (length intercept) (intercept :: weights).
Definition sample_features : list f32 := [dec 4 1; dec (-23) 1; dec 19 1; dec 13 1].

Example test_multiclass_logistic_regression :
  close (logreg_run test_math
           (regression [dec 98 2; dec 32 2; dec (-76) 2]
              [[dec 25 1; dec (-6) 1; dec 5 1]; [dec 12 1; dec 12 1; dec (-27) 1];
               [dec 15 1; dec 1 1; dec (-32) 1]; [dec (-9) 1; dec 14 1; dec 18 1]])
           sample_features)
    [dec 7109495 7; dec 3384968 7; dec 8710191 7] = true.
Proof. vm_compute. reflexivity. Qed.

Example test_multiclass_logistic_regression_when_binary :
  close (logreg_run test_math
           (regression [dec 98 2] [[dec 25 1]; [dec 12 1]; [dec 15 1]; [dec (-9) 1]]) sample_features)
    [dec 2890504 7; dec 7109495 7] = true.
Proof. vm_compute. reflexivity. Qed.

(** ** featurizer.rs *)

(** [compute_all_ngrams] of snips-nlu-utils: the runs of at most [n] successive tokens. *)
Fixpoint prefixes (n : nat) (l : list str) : list (list str) :=
  match n, l with
  | S n, a :: r => [a] :: map (cons a) (prefixes n r)
  | _, _ => []
  end.
Fixpoint test_ngrams (tokens : list str) (n : nat) : list str :=
  match tokens with
  | [] => []
  | a :: r => map (join [space]) (prefixes n tokens) ++ test_ngrams r n
  end.

Definition hello_entities (second : nat) : list CustomEntity :=
  [mkCE $"hello" $"hello" [] (0, 5) $"greeting"; mkCE $"hello" $"hello" [] (0, 5) $"word";
   mkCE $"bird" $"bird" [] (11, 15) $"animal";
   mkCE $"bird" $"bird" [] (second, second + 4) $"animal"].
Definition twenty_two : list BuiltinEntity :=
  [mkBE $"22" (41, 43) (SVBuiltin $"22") [] $"snips/number"].
Definition beauti : str -> str := stemmer_of [($"beautiful", $"beauti")].

Definition bird_model : TfidfModel :=
  mkTM $"en" [ $"snips/number" ]
    [dec 2252762968495368 15; dec 2252762968495368 15; dec 15596157879354227 16;
     dec 2252762968495368 15; dec 18472978603872037 16; dec 18472978603872037 16;
     dec 15596157879354227 16; dec 7 1; dec 17 1; dec 27 1; dec 1 0]
    [($"awful", 0); ($"beauti", 1); ($"bird", 2); ($"blue", 3); ($"hello", 4); ($"nice", 5);
     ($"world", 6); ($"entityfeatureanimal", 7); ($"entityfeatureword", 8);
     ($"entityfeaturegreeting", 9); ($"builtinentityfeaturesnipsnumber", 10)] true None.
Definition bird_features : list f32 :=
  [f0; dec 4022979853278378 16; dec 5570317855419762 16; f0; dec 3298901029212854 16; f0; f0;
   dec 25001173551567585 17; dec 30358567884046356 17; dec 4821654899230893 16;
   dec 17857981108262563 17].

(** "Hëllo this bïrd is a beautiful Bïrd with 22 wings" *)
Definition accented : str :=
  $"H" ++ [235%N] ++ $"llo this b" ++ [239%N] ++ $"rd is a beautiful B" ++ [239%N]
  ++ $"rd with 22 wings".

Definition tfidf_of (m : TfidfModel) (res : Resources) : outcome Tfidf := tfidf_new test_ext test_lang m res.

Example test_transform :
  forallb (fun o =>
    close (let* tv := tfidf_of bird_model
                        (mkRes (mocked_builtin [(accented, twenty_two)])
                           (mocked_custom [($"hello this bird is a beauti bird with 22 wings",
                                            hello_entities 31)]) [] (Some beauti) [] []) in
           featurize test_ext test_ngrams o o (mkFz tv None) accented) bird_features)
    [id_order; rev_order] = true.
Proof. vm_compute. reflexivity. Qed.

Definition wings : str := $"hello this bird is a beautiful bird with 22 wings".
Definition wings_resources : Resources :=
  mkRes (mocked_builtin [(wings, twenty_two)])
    (mocked_custom [(wings, hello_entities 31);
                    ($"hello this bird is a beauti bird with 22 wings", hello_entities 28)])
    [] (Some beauti) [] [ $"a" ].
Definition wings_pairs : CoocModel :=
  mkCM $"en" [ $"snips/number" ]
    [(0, ($"ANIMAL", $"beautiful")); (1, ($"hello", $"ANIMAL")); (2, ($"hello", $"is"));
     (3, ($"this", $"beautiful")); (4, ($"with", $"SNIPSNUMBER")); (5, ($"hello", $"wings"))]
    (Some 2) true true None.

Example test_transform_with_cooccurrence :
  forallb (fun o =>
    close (let* tv := tfidf_of bird_model wings_resources in
           let* cv := cooc_new test_ext test_lang wings_pairs wings_resources in
           featurize test_ext test_ngrams o o (mkFz tv (Some cv)) wings)
      (bird_features ++ [f1; f0; f0; f0; f1; f0]))
    [id_order; rev_order] = true.
Proof. vm_compute. reflexivity. Qed.

Definition love_clusters : str :=
  [newline] ++ $"love" ++ [tab] ++ $"cluster_love" ++ [newline]
  ++ $"house" ++ [tab] ++ $"cluster_house" ++ [newline].

Example test_get_word_cluster_features :
  match clusters_from_reader id_order test_hash love_clusters with
  | Ok cl => word_clusters test_ext test_ngrams (get_cluster test_hash cl)
               (map tk_value (test_tokenize $"I, love House, muSic"))
             = [ $"cluster_house"; $"cluster_love" ]
  | _ => False
  end.
Proof. vm_compute. reflexivity. Qed.

Definition letters (keep_order : bool) (pairs : list (nat * (str * str))) : CoocModel :=
  mkCM $"en" [] pairs None false keep_order (Some $"d").
Definition letter_pairs (keep_order : bool) (third : str * str) : outcome (list (str * str)) :=
  let* cv := cooc_new test_ext test_lang
               (letters keep_order [(0, ($"a", $"c")); (1, ($"a", $"b")); (2, third)])
               (test_resources [] [] []) in
  Ok (extract_word_pairs id_order cv [ $"a"; $"c"; $"b"; $"d" ]).

(** Sets, here in the order in which they are built. *)
Example test_extract_word_pairs :
  letter_pairs true ($"c", $"b") = Ok [($"a", $"c"); ($"a", $"b"); ($"c", $"b")].
Proof. vm_compute. reflexivity. Qed.

Example test_extract_word_pairs_unordered :
  letter_pairs false ($"b", $"c") = Ok [($"a", $"c"); ($"a", $"b"); ($"b", $"c")].
Proof. vm_compute. reflexivity. Qed.

(** ** log_reg_intent_classifier.rs *)
Definition beverage_vocab : list (str * nat) :=
  [($"?", 0); ($"and", 1); ($"boiling", 2); ($"brew", 3);
   ($"builtinentityfeaturesnipsnumber", 4); ($"can", 5); ($"coffee", 6); ($"cold", 7);
   ($"cup", 8); ($"cups", 9); ($"entityfeaturetemperature", 10); ($"hot", 11); ($"make", 12);
   ($"me", 13); ($"please", 14); ($"pls", 15); ($"prepare", 16); ($"tea", 17);
   ($"unknownword", 18); ($"want", 19); ($"you", 20)].
Definition beverage_idf : list f32 :=
  [dec 415700042 8; dec 338381053 8; dec 433932198 8; dec 400284974 8; dec 236524095 8;
   dec 338381053 8; dec 290423745 8; dec 415700042 8; dec 272988407 8; dec 311554655 8;
   dec 317617117 8; dec 355086462 8; dec 300432091 8; dec 300432091 8; dec 375153531 8;
   dec 415700042 8; dec 338381053 8; dec 290423745 8; dec 115296934 8; dec 415700042 8;
   dec 317617117 8].
Definition beverage_intercept : list f32 := [dec (-6864156) 8; dec (-8753256) 8; dec (-5181312) 8].
Definition beverage_coeffs : list (list f32) :=
  [[dec (-55510086) 8; dec (-86491577) 8; dec (-27719474) 8; dec 101186938 8; dec 90334115 8;
    dec 45271861 8; dec 240544488 8; dec (-36875983) 8; dec 99532187 8; dec 2645324 8; dec 0 0;
    dec (-74874958) 8; dec 14024503 8; dec 1279823 7; dec 97976051 8; dec (-36875983) 8;
    dec 45271861 8; dec (-13218943) 7; dec (-284005242) 8; dec (-36875983) 8; dec 15139972 8];
   [dec 7976861 7; dec (-95653898) 8; dec 68651478 8; dec (-70297145) 8; dec 5727077 8;
    dec 2173045 8; dec (-165874611) 8; dec 7715152 7; dec 15168923 8; dec 87229664 8; dec 0 0;
    dec 160177833 8; dec 80573202 8; dec 83453344 8; dec (-85976499) 8; dec 7715152 7;
    dec 2173045 8; dec 263325741 8; dec (-238149177) 8; dec 7715152 7; dec (-27275113) 8];
   [dec (-26737936) 8; dec 68592655 8; dec (-33716278) 8; dec (-48817112) 8; dec (-127965565) 8;
    dec (-59612932) 8; dec (-99629522) 8; dec (-40549986) 8; dec (-112883455) 8;
    dec (-99187234) 8; dec 0 0; dec (-68324725) 8; dec (-9105869) 7; dec (-92031765) 8;
    dec (-31696237) 8; dec (-40549986) 8; dec (-59612932) 8; dec (-112923572) 8; dec 199231387 8;
    dec (-40549986) 8; dec (-32869601) 8]].

Definition two_cups : str := $"Make me two cups of tea".
Definition beverage_classifier : outcome Classifier :=
  let* tv := tfidf_of (mkTM $"en" [ $"snips/number" ] beverage_idf beverage_vocab false None)
               (test_resources [(two_cups, [mkBE $"two" (8, 11) (SVBuiltin $"2") [] $"snips/number"])]
                  [] []) in
  let* lr := logreg_new beverage_intercept beverage_coeffs in
  Ok (mkCl [Some $"MakeCoffee"; Some $"MakeTea"; None]
        (Some (featurize test_ext test_ngrams id_order id_order (mkFz tv None))) (Some lr)).

Example test_get_intent :
  ok_eqb intent_eqb (let* c := beverage_classifier in cl_get_intent test_math c two_cups None)
    (mkIR (Some $"MakeTea") (dec 9088109819597295 16)) = true.
Proof. vm_compute. reflexivity. Qed.

Example test_get_intents :
  (let* c := beverage_classifier in
   let* rs := cl_get_intents test_math c two_cups in Ok (map ir_name rs))
  = Ok [Some $"MakeTea"; Some $"MakeCoffee"; None].
Proof. vm_compute. reflexivity. Qed.

Example test_filter_intents :
  map (fun q => let* c := beverage_classifier in
                let* r := cl_get_intent test_math c (fst q) (Some (snd q)) in Ok (ir_name r))
    [(two_cups, [ $"MakeCoffee"; $"MakeTea" ]); (two_cups, [ $"MakeCoffee" ]);
     ($"bla bla bla", [ $"MakeCoffee" ])]
  = map Ok [Some $"MakeTea"; Some $"MakeCoffee"; None].
Proof. vm_compute. reflexivity. Qed.
