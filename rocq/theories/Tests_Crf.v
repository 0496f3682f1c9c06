(** The unit tests of src/slot_filler/crf_utils.rs:220-882, replayed on the model. *)
From Coq Require Import String List NArith ZArith Bool Arith.
From Verif Require Import Base M_Types M_Crf Demo Tests_Base.
Import ListNotations.
Local Open Scope list_scope.
Local Open Scope nat_scope.

Definition b_ : str := BEGINNING_PREFIX.
Definition i_ : str := INSIDE_PREFIX.
Definition l_ : str := LAST_PREFIX.
Definition u_ : str := UNIT_PREFIX.
Definition o_ : str := OUTSIDE.
Definition animal : str := $"animal".
Definition bA : str := b_ ++ animal.
Definition iA : str := i_ ++ animal.
Definition lA : str := l_ ++ animal.
Definition uA : str := u_ ++ animal.

Definition run_tags (scheme : TaggingScheme) (text : str) (tags : list str) :=
  tags_to_slots text (test_tokenize text) tags scheme [(animal, animal)].
Definition slot (a b : nat) (v : str) : InternalSlot := mkIS v (a, b) animal animal.

Example test_io_tags_to_slots :
  map (fun d => run_tags IO (fst d) (snd d))
    [ ($"", []);
      ($"nothing here", [o_; o_]);
      ($"i am a blue bird", [o_; o_; o_; iA; iA]);
      ($"i am a bird", [o_; o_; o_; iA]);
      ($"bird", [iA]);
      ($"blue bird", [iA; iA]);
      ($"light blue bird blue bird", [iA; iA; iA; iA; iA]);
      ($"bird birdy", [iA; iA]) ]
  = map Ok
    [ []; [];
      [slot 7 16 $"blue bird"];
      [slot 7 11 $"bird"];
      [slot 0 4 $"bird"];
      [slot 0 9 $"blue bird"];
      [slot 0 25 $"light blue bird blue bird"];
      [slot 0 10 $"bird birdy"] ].
Proof. vm_compute. reflexivity. Qed.

Example test_bio_tags_to_slots :
  map (fun d => run_tags BIO (fst d) (snd d))
    [ ($"", []);
      ($"nothing here", [o_; o_]);
      ($"i am a blue bird", [o_; o_; o_; bA; iA]);
      ($"i am a bird", [o_; o_; o_; bA]);
      ($"bird", [bA]);
      ($"blue bird", [bA; iA]);
      ($"light blue bird blue bird", [bA; iA; iA; bA; iA]);
      ($"bird birdy", [bA; bA]);
      ($"blue bird and white bird", [bA; iA; o_; iA; iA]) ]
  = map Ok
    [ []; [];
      [slot 7 16 $"blue bird"];
      [slot 7 11 $"bird"];
      [slot 0 4 $"bird"];
      [slot 0 9 $"blue bird"];
      [slot 0 15 $"light blue bird"; slot 16 25 $"blue bird"];
      [slot 0 4 $"bird"; slot 5 10 $"birdy"];
      [slot 0 9 $"blue bird"; slot 14 24 $"white bird"] ].
Proof. vm_compute. reflexivity. Qed.

Example test_bilou_tags_to_slots :
  map (fun d => run_tags BILOU (fst d) (snd d))
    [ ($"", []);
      ($"nothing here", [o_; o_]);
      ($"i am a blue bird", [o_; o_; o_; bA; lA]);
      ($"i am a bird", [o_; o_; o_; uA]);
      ($"bird", [uA]);
      ($"blue bird", [bA; lA]);
      ($"light blue bird blue bird", [bA; iA; lA; bA; lA]);
      ($"bird birdy", [uA; uA]);
      ($"light bird bird blue bird", [bA; iA; uA; bA; iA]);
      ($"bird bird bird", [lA; bA; uA]) ]
  = map Ok
    [ []; [];
      [slot 7 16 $"blue bird"];
      [slot 7 11 $"bird"];
      [slot 0 4 $"bird"];
      [slot 0 9 $"blue bird"];
      [slot 0 15 $"light blue bird"; slot 16 25 $"blue bird"];
      [slot 0 4 $"bird"; slot 5 10 $"birdy"];
      [slot 0 10 $"light bird"; slot 11 15 $"bird"; slot 16 25 $"blue bird"];
      [slot 0 4 $"bird"; slot 5 9 $"bird"; slot 10 14 $"bird"] ].
Proof. vm_compute. reflexivity. Qed.

Definition at_each (f : list str -> nat -> outcome bool) (tags : list str) : list (outcome bool) :=
  map (f tags) (seq 0 (length tags)).

Definition bio_tags : list str :=
  [o_; b_; i_; o_; i_; o_; b_; o_; i_; b_; o_; b_; b_; i_; i_].

Example test_is_start_of_bio_slot :
  at_each is_start_of_bio_slot bio_tags
  = map Ok [false; true; false; false; true; false; true; false; true; true; false; true; true;
            false; false].
Proof. vm_compute. reflexivity. Qed.

Example test_is_end_of_bio_slot :
  at_each is_end_of_bio_slot bio_tags
  = map Ok [false; false; true; false; true; false; true; false; true; true; false; true; false;
            false; true].
Proof. vm_compute. reflexivity. Qed.

Example test_start_of_bilou_slot :
  at_each is_start_of_bilou_slot
    [o_; l_; u_; b_; u_; i_; l_; l_; u_; u_; l_; o_; l_; b_; i_; i_; l_]
  = map Ok [false; true; true; true; true; true; false; true; true; true; true; false; true; true;
            false; false; false].
Proof. vm_compute. reflexivity. Qed.

Example test_is_end_of_bilou_slot :
  at_each is_end_of_bilou_slot
    [o_; l_; u_; b_; u_; i_; l_; l_; u_; u_; l_; o_; i_; b_; o_; b_; i_; i_; l_]
  = map Ok [false; true; true; true; true; false; true; true; true; true; true; false; true; true;
            false; false; false; false; true].
Proof. vm_compute. reflexivity. Qed.

Example tests_get_scheme_prefix :
  [ get_scheme_prefix 5 [3; 4; 5] IO;
    get_scheme_prefix 3 [3; 4; 5] BIO;
    get_scheme_prefix 4 [3; 4; 5] BIO;
    get_scheme_prefix 3 [3; 4; 5] BILOU;
    get_scheme_prefix 4 [3; 4; 5] BILOU;
    get_scheme_prefix 5 [3; 4; 5] BILOU;
    get_scheme_prefix 1 [1] BILOU ]
  = map Ok [ $"I-"; $"B-"; $"I-"; $"B-"; $"I-"; $"L-"; $"U-" ].
Proof. vm_compute. reflexivity. Qed.
