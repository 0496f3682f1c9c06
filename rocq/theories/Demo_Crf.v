(** A small slot filler, for the examples. Not part of the model of the repository. *)
From Coq Require Import String List NArith ZArith Bool Arith Lia.
From Verif Require Import Base F32 M_Types M_Crf M_Feat M_Features M_Filler S_Base S_Utils S_Det S_Crf S_Filler
  P_Base P_Crf P_Encode P_Features P_Filler Demo P_Demo.
Import ListNotations.
Local Open Scope nat_scope.

Definition room_text : str := $"turn on the living room now".
Definition room_toks : list token := demo_tokenize room_text.
Definition room_tags : list str := [$"O"; $"O"; $"O"; $"B-room"; $"I-room"; $"O"].

(** A tagger that reads the unigram of the token. *)
Definition word_tag (row : list (str * str)) : str :=
  match sget $"ngram_1" row with
  | Some w => if str_eqb w $"living" then $"B-room" else if str_eqb w $"room" then $"I-room" else $"O"
  | None => $"O"
  end.
Definition demo_tagger : Tagger :=
  mkTagger (Ok (map encode_tag [$"B-room"; $"I-room"; $"O"]))
           (fun fs => Ok (map (fun row => encode_tag (word_tag row)) fs))
           (fun _ _ => Ok (f64_of_Z 1)).
Definition empty_tagger : Tagger :=
  mkTagger (Ok []) (fun fs => Ok (map (fun row => encode_tag (word_tag row)) fs)) (fun _ _ => Ok (f64_of_Z 1)).

Definition demo_shape (s : str) : str :=
  match s with c :: _ => if ((65 <=? c) && (c <=? 90))%N then $"Xxx" else $"xxx" | [] => [] end.
Definition num (n : Z) : args := [($"n", JNum n); ($"common_words_gazetteer_name", JNull); ($"use_stemming", JBool false)].
Definition demo_factories : list FeatureFactory :=
  [mkFF $"ngram" [0%Z; (-1)%Z] (num 1); mkFF $"ngram" [0%Z; 1%Z] (num 2); mkFF $"is_first" [0%Z] [];
   mkFF $"prefix" [0%Z] [($"prefix_size", JNum 2)];
   mkFF $"entity_match" [0%Z] [($"entities", JArr [JStr $"room"]); ($"tagging_scheme_code", JNum 1);
                               ($"use_stemming", JBool false)]].
Definition demo_sfm (scheme : nat) (crf : option str) : SlotFillerModel :=
  mkSFM $"en" [($"room", $"room_type")] crf scheme demo_factories.
Definition demo_filler_lang (s : str) : option lang := if str_eqb s $"en" then Some EN else None.
Definition no_filler : CrfFiller := mkCF EN IO None None [].
Definition demo_filler (t : Tagger) : CrfFiller :=
  get_ok no_filler (crf_new demo_ext demo_shape demo_filler_lang (fun _ => Ok t) (demo_sfm 1 (Some $"model.crfsuite")) demo_res).

Lemma word_tag_alphabet row : in_alphabet BIO (word_tag row).
Proof.
  unfold word_tag. destruct (sget $"ngram_1" row) as [w|]; [|left; reflexivity].
  destruct (str_eqb w $"living"); [right; left; exists $"room"; reflexivity|].
  destruct (str_eqb w $"room"); [right; right; exists $"room"; reflexivity|left; reflexivity].
Qed.
Lemma word_tag_unicode row : unicode (word_tag row).
Proof.
  unfold word_tag. destruct (sget $"ngram_1" row) as [w|];
    [destruct (str_eqb w $"living"); [|destruct (str_eqb w $"room")]|];
    intros c Hc; vm_compute in Hc; intuition (subst; left; reflexivity).
Qed.
Lemma demo_tagger_ok : tagger_ok demo_tagger /\ tags_in_alphabet BIO demo_tagger /\ tagger_never_panics demo_tagger.
Proof.
  split; [|split].
  - intros fs tags [= <-]. apply map_length.
  - intros fs raw tags [= <-] H. rewrite <- (map_map word_tag encode_tag) in H.
    rewrite decode_labels in H; [injection H as <-; apply Forall_forall; intros t Ht|].
    + apply in_map_iff in Ht. destruct Ht as (row & <- & _). apply word_tag_alphabet.
    + intros t Ht. apply in_map_iff in Ht. destruct Ht as (row & <- & _). apply word_tag_unicode.
  - intros fs. discriminate.
Qed.

Lemma demo_parsers : parsers_never_panic demo_res.
Proof.
  split.
  - intros s f u n. cbn [rs_builtin demo_res]. unfold demo_builtin. discriminate.
  - intros s f n. cbn [rs_custom demo_res]. unfold demo_custom. discriminate.
Qed.

Lemma foreign_overlap : exists tags s1 s2,
    tags_to_slot_ranges room_toks tags BIO = Ok [s1; s2] /\ overlaps (sr_char_range s1) (sr_char_range s2).
Proof.
  exists [$"B-a"; $"X-b"], (mkSR $"a" (0, 4) (0, 4)), (mkSR $"b" (0, 7) (0, 7)). split; [vm_compute; reflexivity|].
  exists 0. unfold in_range. cbn. lia.
Qed.

Ltac in_cases H := cbn [In] in H; repeat (destruct H as [H|H]); try contradiction.
Ltac check_encodes :=
  split; [reflexivity|]; intros i Hi; cbn [length] in Hi;
  do 6 (destruct i as [|i]; [split;
    [intros s name Hs [H1 H2]; in_cases Hs; injection Hs as <- <-; unfold rstart, rend in *; cbn [fst snd] in *; try lia;
       eexists; split; vm_compute; reflexivity
    |intros Hn; try reflexivity; exfalso;
       match type of Hn with forall s, In s ?l -> ~ in_range ?k s =>
         let rec go l' := match l' with
           | ?r :: ?t => first [apply (Hn r); [cbn; tauto|unfold in_range; cbn; lia] | go t] end in
         let l2 := eval cbn in l in go l2 end]|]); lia.
Ltac check_slots_ok :=
  split; [intros s Hs; in_cases Hs; subst s; unfold wf_range, rstart, rend; cbn [fst snd length]; lia
         |apply SS_ordered_disjoint;
           [cbn [map fst]; unfold rstart, rend;
            repeat first [apply Sorted.SSorted_nil|apply Sorted.SSorted_cons|apply Forall_nil|apply Forall_cons]; cbn; lia
           |intros s Hs; in_cases Hs; subst s; cbn; lia]].

Lemma partition_case :
  Forall (in_alphabet BIO) room_tags /\ length room_tags <= length room_toks /\
  segmentation BIO [$"I-a"; $"I-a"; $"B-b"; $"O"; $"I-c"] [(0, 2); (2, 3); (4, 5)] /\
  tags_to_slot_ranges room_toks [$"I-a"; $"I-a"; $"B-b"; $"O"; $"I-c"] BIO =
    Ok [mkSR $"a" (0, 7) (0, 7); mkSR $"b" (8, 11) (8, 11); mkSR $"c" (19, 23) (19, 23)] /\
  tags_to_slot_ranges room_toks [$"U-a"; $"U-a"; $"I-b"; $"L-b"; $"I-c"; $"B-c"] BILOU =
    Ok [mkSR $"a" (0, 4) (0, 4); mkSR $"a" (5, 7) (5, 7); mkSR $"b" (8, 18) (8, 18);
        mkSR $"c" (19, 23) (19, 23); mkSR $"c" (24, 27) (24, 27)].
Proof.
  assert (Ha : forall p r, p = $"B-" \/ p = $"I-" -> in_alphabet BIO (p ++ r)).
  { intros p r [->| ->]; right; [left|right]; exists r; reflexivity. }
  split; [|split; [vm_compute; lia|split; [|split; vm_compute; reflexivity]]].
  - repeat apply Forall_cons; try apply Forall_nil; try (left; reflexivity);
      [apply (Ha $"B-" $"room"); tauto|apply (Ha $"I-" $"room"); tauto].
  - set (tags := [$"I-a"; $"I-a"; $"B-b"; $"O"; $"I-c"]).
    replace [(0, 2); (2, 3); (4, 5)] with (decoded_segs BIO tags) by (vm_compute; reflexivity).
    apply decoded_segmentation. subst tags. repeat apply Forall_cons; try apply Forall_nil; try (left; reflexivity);
      [apply (Ha $"I-" $"a")|apply (Ha $"I-" $"a")|apply (Ha $"B-" $"b")|apply (Ha $"I-" $"c")]; tauto.
Qed.

Lemma io_adjacent :
  let slots := [((3, 4), $"a"); ((4, 5), $"b")] in
  let tags := [$"O"; $"O"; $"O"; $"I-a"; $"I-b"; $"O"] in
  slots_ok (length tags) slots /\ encodes IO (length tags) slots tags /\
  tags_to_slot_ranges room_toks tags IO = Ok [mkSR $"b" (12, 23) (12, 23)].
Proof.
  cbv zeta. split; [check_slots_ok|]. split; [check_encodes|vm_compute; reflexivity].
Qed.

Lemma round_trip_case :
  let slots := [((0, 1), $"a"); ((1, 4), $"b"); ((4, 6), $"b")] in
  let bio := [$"B-a"; $"B-b"; $"I-b"; $"I-b"; $"B-b"; $"I-b"] in
  let bilou := [$"U-a"; $"B-b"; $"I-b"; $"L-b"; $"B-b"; $"L-b"] in
  slots_ok 6 slots /\ encodes BIO 6 slots bio /\ encodes BILOU 6 slots bilou /\
  tags_to_slot_ranges room_toks bio BIO = tags_to_slot_ranges room_toks bilou BILOU /\
  tags_to_slot_ranges room_toks bio BIO =
    Ok [mkSR $"a" (0, 4) (0, 4); mkSR $"b" (5, 18) (5, 18); mkSR $"b" (19, 27) (19, 27)].
Proof.
  cbv zeta. split; [check_slots_ok|]. split; [check_encodes|]. split; [check_encodes|].
  split; vm_compute; reflexivity.
Qed.

Lemma slices_case :
  tokens_ok ([233; 233; 32]%N ++ room_text) (demo_tokenize ([233; 233; 32]%N ++ room_text)) /\
  tags_to_slots ([233; 233; 32]%N ++ room_text) (demo_tokenize ([233; 233; 32]%N ++ room_text))
    ($"O" :: room_tags) BIO [($"room", $"room_type")] = Ok [mkIS $"living room" (15, 26) $"room_type" $"room"] /\
  tags_to_slots room_text room_toks room_tags BIO [] = Err EOther /\
  (tagger_ok demo_tagger /\ tags_in_alphabet (cf_scheme (demo_filler demo_tagger)) demo_tagger) /\
  crf_get_slots demo_ext (demo_filler demo_tagger) false room_text =
    Ok [mkIS $"living room" (12, 23) $"room_type" $"room"].
Proof.
  split; [apply demo_tokenize_ok|]. split; [vm_compute; reflexivity|]. split; [vm_compute; reflexivity|].
  split; [|vm_compute; reflexivity]. destruct demo_tagger_ok as (H1 & H2 & _). split; [exact H1|].
  replace (cf_scheme (demo_filler demo_tagger)) with BIO by (vm_compute; reflexivity). exact H2.
Qed.

Lemma encode_case :
  unicode [66; 45; 233; 8364; 128512]%N /\
  encode_tag [66; 45; 233; 8364; 128512]%N = $"Qi3DqeKCrPCfmIA=" /\
  encode_tag $"B-room" = $"Qi1yb29t" /\ decode_tag $"Qi1yb29t" = Ok $"B-room" /\
  decode_tag $"Qi1yb29" = Err EOther.
Proof.
  split; [|vm_compute; repeat split; reflexivity].
  intros c Hc. cbn [In] in Hc. intuition (subst; (left; reflexivity) || (right; split; [discriminate|reflexivity])).
Qed.

Lemma probability_case :
  cf_tagger no_filler = None /\
  cf_tagger (demo_filler demo_tagger) = Some demo_tagger /\
  tg_labels demo_tagger = Ok (map encode_tag [$"B-room"; $"I-room"; $"O"]) /\
  clean_tags [$"B-room"; $"I-room"; $"O"] [$"B-room"; $"B-color"] = Ok [encode_tag $"B-room"; encode_tag $"O"] /\
  clean_tags [$"B-room"; $"I-room"] [$"I-room"; $"B-color"] = Ok [encode_tag $"I-room"; encode_tag $"B-room"] /\
  crf_sequence_probability (demo_filler empty_tagger) false room_toks room_tags = (Panic, true).
Proof.
  split; [reflexivity|]. split; [reflexivity|]. split; [reflexivity|]. split; [vm_compute; reflexivity|].
  split; [vm_compute; reflexivity|]. vm_compute. reflexivity.
Qed.

Lemma rebuild_case :
  tokens_ok $"  a  bc d " (demo_tokenize $"  a  bc d ") /\ laid_out (demo_tokenize $"  a  bc d ") /\
  initial_string_from_tokens (demo_tokenize $"  a  bc d ") = Ok $"  a  bc d" /\
  initial_string_from_tokens (transform_tokens demo_ext (demo_tokenize $"  A  Bc d ") None) = Ok $"a bc d".
Proof.
  split; [apply demo_tokenize_ok|]. split; [eapply tokens_ok_laid_out; apply demo_tokenize_ok|].
  split; vm_compute; reflexivity.
Qed.

Lemma keys_collide x sc st parser :
  let f := entity_match_feature x $"room" sc st parser in
  let g := entity_match_feature x $"room[+1]" sc st parser in
  ft_name f <> ft_name g /\ key_of f 1 = key_of g 0.
Proof. split; [cbn [ft_name entity_match_feature]; discriminate|reflexivity]. Qed.

Lemma offsets_case :
  exists p fs, processor_new demo_ext demo_shape demo_factories demo_res = Ok p /\
    compute_features p room_toks = Ok fs /\
    nth_error fs 4 = Some [($"ngram_1[-1]", $"living"); ($"ngram_1", $"room"); ($"ngram_2", $"room now");
                           ($"prefix_2", $"ro")].
Proof.
  exists (get_ok [] (processor_new demo_ext demo_shape demo_factories demo_res)),
    (get_ok [] (compute_features (get_ok [] (processor_new demo_ext demo_shape demo_factories demo_res)) room_toks)). split; [reflexivity|]. split; [reflexivity|]. vm_compute. reflexivity.
Qed.

Lemma never_panics_case :
  crf_new demo_ext demo_shape demo_filler_lang (fun _ => Ok demo_tagger) (demo_sfm 1 (Some $"model.crfsuite")) demo_res =
    Ok (demo_filler demo_tagger) /\
  tokens_ok room_text room_toks /\ parsers_never_panic demo_res /\
  sizes_fit (length room_toks) demo_factories /\
  (forall f o, In f demo_factories -> In o (ff_offsets f) -> is_i32 o) /\
  tagger_ok demo_tagger /\ tagger_never_panics demo_tagger.
Proof.
  split; [reflexivity|]. split; [apply demo_tokenize_ok|]. split; [apply demo_parsers|]. split; [|split].
  - intros f z Hf Hz. replace (Z.of_nat (length room_toks)) with 6%Z by (vm_compute; reflexivity).
    in_cases Hf; subst f; vm_compute in Hz; try discriminate; injection Hz as <-; reflexivity.
  - intros f o Hf Ho. in_cases Hf; subst f; cbn [ff_offsets] in Ho; in_cases Ho; subst o; split; try reflexivity; discriminate.
  - split; apply demo_tagger_ok.
Qed.
