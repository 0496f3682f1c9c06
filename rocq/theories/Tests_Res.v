(** The unit tests of src/resources/word_clusterer.rs:82-133, gazetteer.rs:46-70,
    stemmer.rs:56-83, src/models/processing_unit_metadata.rs:14-28 and the first two of
    src/entity_parser/custom_entity_parser.rs:187-273, replayed on the model. *)
From Coq Require Import String List NArith ZArith Bool Arith.
From Verif Require Import Base Sorting F32 M_Types M_Res M_Cache M_Features M_Json M_Load Demo Tests_Base.
Import ListNotations.
Local Open Scope list_scope.
Local Open Scope nat_scope.

Definition hash : str -> Z := x_hash test_ext.
Definition nl : str := [newline].
Definition tb : str := [tab].
Definition quote : str := [34%N].

Definition mixed_clusters : str :=
  nl ++ $"hello" ++ tb ++ $"42" ++ nl ++ $"world" ++ tb ++ $"123" ++ nl
  ++ quote ++ $"yolo" ++ tb ++ $"cluster_which_is_not_u16" ++ nl.

Example test_hashmap_word_clusterer_with_non_u16_values :
  forallb (fun o =>
    match clusters_from_reader o hash mixed_clusters with
    | Ok (CStr m) =>
        opt_eqb str_eqb (get_cluster hash (CStr m) $"hello") (Some $"42")
        && opt_eqb str_eqb (get_cluster hash (CStr m) $"world") (Some $"123")
        && opt_eqb str_eqb (get_cluster hash (CStr m) (quote ++ $"yolo"))
             (Some $"cluster_which_is_not_u16")
        && opt_eqb str_eqb (get_cluster hash (CStr m) $"unknown") None
    | _ => false
    end) [id_order; rev_order] = true.
Proof. vm_compute. reflexivity. Qed.

Definition number_clusters : str :=
  nl ++ $"hello" ++ tb ++ $"42" ++ nl ++ $"world" ++ tb ++ $"123" ++ nl
  ++ $"yolo" ++ tb ++ $"65500" ++ nl.

Example test_hashmap_word_clusterer_with_u16_values :
  forallb (fun o =>
    match clusters_from_reader o hash number_clusters with
    | Ok (CNum m) =>
        opt_eqb str_eqb (get_cluster hash (CNum m) $"hello") (Some $"42")
        && opt_eqb str_eqb (get_cluster hash (CNum m) $"world") (Some $"123")
        && opt_eqb str_eqb (get_cluster hash (CNum m) $"yolo") (Some $"65500")
        && opt_eqb str_eqb (get_cluster hash (CNum m) $"unknown") None
    | _ => false
    end) [id_order; rev_order] = true.
Proof. vm_compute. reflexivity. Qed.

Example test_hashset_gazetteer :
  let g := gazetteer_from_reader hash
             (nl ++ $"dog" ++ nl ++ $"cat" ++ nl ++ $"bear" ++ nl ++ $"crocodile") in
  map (gazetteer_contains hash g) [ $"dog"; $"crocodile"; $"bird" ] = [true; true; false].
Proof. vm_compute. reflexivity. Qed.

Example test_hashmap_stemmer :
  match stemmer_from_reader hash
          (nl ++ $"investigate,investigated,investigation," ++ quote ++ $"investigate" ++ nl
           ++ $"do,done,don't,doing,did,does") with
  | Ok m => map (stem test_ext m) [ $"don't"; $"does"; quote ++ $"investigate"; $"unknown" ]
            = [ $"do"; $"do"; $"investigate"; $"unknown" ]
  | _ => False
  end.
Proof. vm_compute. reflexivity. Qed.

Example test_compute_char_shifts :
  compute_char_shifts [mkTok $"hello" (0, 5) (0, 5); mkTok $"?" (5, 6) (5, 6);
                       mkTok $"world" (6, 11) (6, 11)]
  = [0; 0; 0; 0; 0; 1; 1; 2; 2; 2; 2; 2; 2]%Z.
Proof. vm_compute. reflexivity. Qed.

(** processing_unit_metadata.rs *)
Example test_deserialize :
  d_unit (JObj [($"unit_name", JStr $"crf_slot_filler")]) = Ok UCrf.
Proof. reflexivity. Qed.

(** The gazetteer parser finds "hot" in the tokens joined by single spaces. *)
Definition hot_gazetteer (s : str) (_ : option (list str)) (_ : nat) : outcome (list CustomEntity) :=
  if str_eqb s $"make me a ? hot tea"
  then Ok [mkCE $"hot" $"hot" [] (12, 15) $"Temperature"] else Ok [].

Example test_custom_entity_parser_handles_char_shifts :
  custom_extract test_ext EN hot_gazetteer (x_lower test_ext $"Make me a  ?hot tea") None 0
  = Ok [mkCE $"hot" $"hot" [] (12, 15) $"Temperature"].
Proof. vm_compute. reflexivity. Qed.
