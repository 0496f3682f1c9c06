(** The unit tests of src/slot_filler/features_utils.rs:42-108, features.rs:489-857 and
    feature_processor.rs:110-202, replayed on the model. *)
From Coq Require Import String List NArith ZArith Bool Arith.
From Verif Require Import Base Sorting F32 M_Types M_Crf M_Res M_Features Demo Tests_Base.
Import ListNotations.
Local Open Scope list_scope.
Local Open Scope nat_scope.

Example test_get_word_chunk : get_word_chunk $"hello_world" 6 5 false = Some $"_world".
Proof. vm_compute. reflexivity. Qed.
Example test_get_word_chunk_reversed : get_word_chunk $"hello_world" 8 8 true = Some $"hello_wo".
Proof. vm_compute. reflexivity. Qed.
Example test_get_word_chunk_out_of_bound : get_word_chunk $"hello_world" 4 8 false = None.
Proof. vm_compute. reflexivity. Qed.
Example test_initial_string_from_tokens :
  initial_string_from_tokens [mkTok $"hello" (0, 5) (0, 5); mkTok $"world" (9, 14) (9, 14);
                              mkTok $"!!!" (17, 20) (17, 20)]
  = Ok $"hello    world   !!!".
Proof. vm_compute. reflexivity. Qed.

(** [HashMapStemmer::from_iter] and [HashSetGazetteer::from_iter] *)
Definition stemmer_of (l : list (str * str)) : str -> str :=
  stem test_ext (map (fun p => (test_hash (fst p), snd p)) l).
Definition gazetteer_of (l : list str) : str -> bool :=
  gazetteer_contains test_hash (map test_hash l).

Definition pound : str := [163%N].

Example test_transform_tokens :
  transform_tokens test_ext (test_tokenize ($"fo" ++ pound ++ $" root_suffix inflection bar"))
    (Some (stemmer_of [($"root_suffix", $"root"); ($"inflection", $"original_word")]))
  = [mkTok $"fo" (0, 2) (0, 2); mkTok pound (3, 5) (3, 4); mkTok $"root" (6, 10) (5, 9);
     mkTok $"original_word" (11, 24) (10, 23); mkTok $"bar" (25, 28) (24, 27)].
Proof. vm_compute. reflexivity. Qed.

Definition computes (f : Feature) (text : str) (n : nat) : list (outcome (option str)) :=
  map (ft_compute f (test_tokenize text)) (seq 0 n).

Example test_is_digit_feature :
  computes is_digit_feature $"e3 abc 42 5r" 4 = map Ok [None; None; Some $"1"; None].
Proof. vm_compute. reflexivity. Qed.

Example test_length_feature :
  computes length_feature $"hello world helloworld" 3 = map Ok [Some $"5"; Some $"5"; Some $"10"].
Proof. vm_compute. reflexivity. Qed.

Example test_prefix_feature :
  computes (prefix_feature test_ext 6) $"hello_world foo_bar" 2
  = map Ok [Some $"hello_"; Some $"foo_ba"].
Proof. vm_compute. reflexivity. Qed.

Example test_suffix_feature :
  computes (suffix_feature test_ext 6) $"hello_world foo_bar" 2
  = map Ok [Some $"_world"; Some $"oo_bar"].
Proof. vm_compute. reflexivity. Qed.

(** [get_shape] of snips-nlu-utils. *)
Definition is_lower (c : char) : bool := ((97 <=? c) && (c <=? 122))%N.
Definition is_upper (c : char) : bool := ((65 <=? c) && (c <=? 90))%N.
Definition test_shape (s : str) : str :=
  if forallb is_lower s then $"xxx"
  else if forallb is_upper s then $"XXX"
  else match s with
       | c :: r => if is_upper c && forallb is_lower r then $"Xxx" else $"xX"
       | [] => $"xX"
       end.

Example test_shape_feature :
  computes (shape_ngram_feature test_shape 2) $"Hello BEAUTIFUL world !!!" 6
  = map Ok [Some $"Xxx XXX"; Some $"XXX xxx"; Some $"xxx xX"; Some $"xX xX"; Some $"xX xX"; None].
Proof. vm_compute. reflexivity. Qed.

Definition house : str := $"I love House Music".

Example test_ngram_feature :
  computes (ngram_feature test_ext 2 None None) house 4
  = map Ok [Some $"i love"; Some $"love house"; Some $"house music"; None].
Proof. vm_compute. reflexivity. Qed.

Example test_ngram_feature_with_common_words_gazetteer :
  computes (ngram_feature test_ext 2 (Some (gazetteer_of [ $"i"; $"love"; $"music" ])) None) house 4
  = map Ok [Some $"i love"; Some $"love rare_word"; Some $"rare_word music"; None].
Proof. vm_compute. reflexivity. Qed.

Example ngram_feature_works_with_stemmer :
  computes (ngram_feature test_ext 2 None (Some (stemmer_of [($"house", $"hous")]))) house 4
  = map Ok [Some $"i love"; Some $"love hous"; Some $"hous music"; None].
Proof. vm_compute. reflexivity. Qed.

Definition bird (v : str) (a b : nat) : CustomEntity := mkCE v v [] (a, b) $"bird_type".

Example test_entity_match_feature :
  computes (entity_match_feature test_ext $"bird_type" BILOU None
              (mocked_custom [($"i love this beautiful blue bird !",
                               [bird $"beautiful blue bird" 12 31])]))
    $"I love this beautiful blue Bird !" 6
  = map Ok [None; None; None; Some $"B-"; Some $"I-"; Some $"L-"].
Proof. vm_compute. reflexivity. Qed.

Example test_entity_match_feature_with_stemming :
  computes (entity_match_feature test_ext $"bird_type" BILOU (Some (stemmer_of [($"birds", $"bird")]))
              (mocked_custom [($"i love blue bird !", [bird $"blue bird" 7 16])]))
    $"I love Blue Birds !" 5
  = map Ok [None; None; Some $"B-"; Some $"L-"; None].
Proof. vm_compute. reflexivity. Qed.

Definition degrees : str := $"Please raise to twenty one degrees ok ?".

Example test_builtin_entity_match_feature :
  computes (builtin_match_feature $"snips/datetime" BILOU
              (mocked_builtin [(degrees, [mkBE $"twenty one degrees" (16, 34) (SVBuiltin $"21") []
                                            $"snips/temperature"])]))
    degrees 7
  = map Ok [None; None; None; Some $"B-"; Some $"I-"; Some $"L-"; None].
Proof. vm_compute. reflexivity. Qed.

Definition bird_clusters : str := [newline] ++ $"bird" ++ [tab] ++ $"42" ++ [newline].

Example test_word_cluster_feature :
  match clusters_from_reader id_order test_hash bird_clusters with
  | Ok cl => computes (word_cluster_feature test_ext $"test_clusters" (get_cluster test_hash cl))
               $"I love this bird" 4
             = map Ok [None; None; None; Some $"42"]
  | _ => False
  end.
Proof. vm_compute. reflexivity. Qed.

Definition sevens : list token := test_tokenize $"I prefer 7 over 777".

Example test_compute_features :
  compute_features [mkFO is_digit_feature [0%Z]; mkFO length_feature [0%Z]] sevens
  = Ok [ [($"length", $"1")];
         [($"length", $"6")];
         [($"is_digit", $"1"); ($"length", $"1")];
         [($"length", $"4")];
         [($"is_digit", $"1"); ($"length", $"3")] ].
Proof. vm_compute. reflexivity. Qed.

Example test_offset :
  compute_features [mkFO is_digit_feature [(-2)%Z; 0%Z; 3%Z]; mkFO length_feature [(-1)%Z; 1%Z]] sevens
  = Ok [ [($"length[+1]", $"6")];
         [($"is_digit[+3]", $"1"); ($"length[-1]", $"1"); ($"length[+1]", $"1")];
         [($"is_digit", $"1"); ($"length[-1]", $"6"); ($"length[+1]", $"4")];
         [($"length[-1]", $"1"); ($"length[+1]", $"3")];
         [($"is_digit[-2]", $"1"); ($"is_digit", $"1"); ($"length[-1]", $"4")] ].
Proof. vm_compute. reflexivity. Qed.
