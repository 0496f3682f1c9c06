(** Properties of the tag schemes of the slot filler: C26, C27, C28, C29.  [Print
    Assumptions] beneath each theorem lists what it rests on. *)
From Coq Require Import String List NArith ZArith Bool Arith Lia.
From Verif Require Import Base M_Types M_Crf M_Feat M_Features M_Filler S_Base S_Utils S_Det S_Crf S_Filler
  P_Crf P_Encode P_Features P_Filler Demo P_Demo Demo_Crf.
Import ListNotations.
Local Open Scope nat_scope.

(** ** C26 *)
Theorem C26_tags_partition : forall sc toks tags,
  length tags <= length toks -> Forall (in_alphabet sc) tags ->
  exists segs slots, tags_to_slot_ranges toks tags sc = Ok slots /\
    segmentation sc tags segs /\ Forall2 (slot_of_segment toks tags) segs slots.
Proof. exact tags_partition. Qed.
Print Assumptions C26_tags_partition.

(** All tags, of any scheme: still groups of tokens of the sentence, still no panic. *)
Theorem C26_any_tags : forall sc toks tags,
  length tags <= length toks ->
  exists segs slots, tags_to_slot_ranges toks tags sc = Ok slots /\
    (forall s, In s segs -> wf_range (length tags) s) /\ Forall2 (slot_of_segment toks tags) segs slots.
Proof. exact tags_inside. Qed.
Print Assumptions C26_any_tags.

(** Finding: with a tag outside of the BIO alphabet, two slots overlap. *)
Theorem C26_foreign_tags_refuted :
  exists tags s1 s2,
    tags_to_slot_ranges room_toks tags BIO = Ok [s1; s2] /\ overlaps (sr_char_range s1) (sr_char_range s2).
Proof. exact foreign_overlap. Qed.
Print Assumptions C26_foreign_tags_refuted.

Example C26_case :
  Forall (in_alphabet BIO) room_tags /\ length room_tags <= length room_toks /\
  segmentation BIO [$"I-a"; $"I-a"; $"B-b"; $"O"; $"I-c"] [(0, 2); (2, 3); (4, 5)] /\
  tags_to_slot_ranges room_toks [$"I-a"; $"I-a"; $"B-b"; $"O"; $"I-c"] BIO =
    Ok [mkSR $"a" (0, 7) (0, 7); mkSR $"b" (8, 11) (8, 11); mkSR $"c" (19, 23) (19, 23)] /\
  tags_to_slot_ranges room_toks [$"U-a"; $"U-a"; $"I-b"; $"L-b"; $"I-c"; $"B-c"] BILOU =
    Ok [mkSR $"a" (0, 4) (0, 4); mkSR $"a" (5, 7) (5, 7); mkSR $"b" (8, 18) (8, 18);
        mkSR $"c" (19, 23) (19, 23); mkSR $"c" (24, 27) (24, 27)].
Proof. exact partition_case. Qed.

(** ** C27 *)
Theorem C27_round_trip : forall sc toks slots tags,
  length tags <= length toks -> slots_ok (length tags) slots -> encodes sc (length tags) slots tags ->
  (sc = IO -> not_adjacent slots) ->
  exists decoded, tags_to_slot_ranges toks tags sc = Ok decoded /\ Forall2 (same_slot_as toks) slots decoded.
Proof. exact round_trip. Qed.
Print Assumptions C27_round_trip.

(** Finding: IO merges adjacent slots. *)
Theorem C27_io_adjacent_refuted :
  let slots := [((3, 4), $"a"); ((4, 5), $"b")] in
  let tags := [$"O"; $"O"; $"O"; $"I-a"; $"I-b"; $"O"] in
  slots_ok (length tags) slots /\ encodes IO (length tags) slots tags /\
  tags_to_slot_ranges room_toks tags IO = Ok [mkSR $"b" (12, 23) (12, 23)].
Proof. exact io_adjacent. Qed.
Print Assumptions C27_io_adjacent_refuted.

Example C27_case :
  let slots := [((0, 1), $"a"); ((1, 4), $"b"); ((4, 6), $"b")] in
  let bio := [$"B-a"; $"B-b"; $"I-b"; $"I-b"; $"B-b"; $"I-b"] in
  let bilou := [$"U-a"; $"B-b"; $"I-b"; $"L-b"; $"B-b"; $"L-b"] in
  slots_ok 6 slots /\ encodes BIO 6 slots bio /\ encodes BILOU 6 slots bilou /\
  tags_to_slot_ranges room_toks bio BIO = tags_to_slot_ranges room_toks bilou BILOU /\
  tags_to_slot_ranges room_toks bio BIO =
    Ok [mkSR $"a" (0, 4) (0, 4); mkSR $"b" (5, 18) (5, 18); mkSR $"b" (19, 27) (19, 27)].
Proof. exact round_trip_case. Qed.

(** ** C28 *)
Theorem C28_slots_are_slices : forall text toks tags sc mapping slots,
  tokens_ok text toks -> length tags <= length toks -> tags_to_slots text toks tags sc mapping = Ok slots ->
  exists segs, (forall s, In s segs -> wf_range (length tags) s) /\
    (Forall (in_alphabet sc) tags -> segmentation sc tags segs) /\
    Forall2 (text_slot text toks tags mapping) segs slots.
Proof. exact slots_slices. Qed.
Print Assumptions C28_slots_are_slices.

Theorem C28_undeclared_slot : forall text toks tags sc mapping,
  tokens_ok text toks -> length tags <= length toks -> Forall (in_alphabet sc) tags ->
  tags_to_slots text toks tags sc mapping <> Panic /\
  ((exists e, tags_to_slots text toks tags sc mapping = Err e) <->
   exists i t, ends_slot sc tags i t /\ ~ In (skipn 2 t) (map fst mapping)).
Proof. exact slots_undeclared. Qed.
Print Assumptions C28_undeclared_slot.

Theorem C28_no_panic : forall text toks tags sc mapping,
  tokens_ok text toks -> length tags <= length toks -> tags_to_slots text toks tags sc mapping <> Panic.
Proof. exact slots_no_panic. Qed.
Print Assumptions C28_no_panic.

(** The whole slot filler, from the text to the slots. *)
Theorem C28_slot_filler : forall x cf text slots,
  tokens_ok text (x_tokenize x (cf_lang cf) text) ->
  (forall tg, cf_tagger cf = Some tg -> tagger_ok tg /\ tags_in_alphabet (cf_scheme cf) tg) ->
  crf_get_slots x cf false text = Ok slots ->
  (forall s, In s slots -> wf_range (length text) (is_range s) /\ is_value s = substring text (is_range s) /\
             In (is_slot_name s, is_entity s) (cf_mapping cf)) /\
  ordered_disjoint (map is_range slots).
Proof. exact filler_slots. Qed.
Print Assumptions C28_slot_filler.

(** Two characters of two bytes each shift the byte offsets. *)
Example C28_case :
  tokens_ok ([233; 233; 32]%N ++ room_text) (demo_tokenize ([233; 233; 32]%N ++ room_text)) /\
  tags_to_slots ([233; 233; 32]%N ++ room_text) (demo_tokenize ([233; 233; 32]%N ++ room_text))
    ($"O" :: room_tags) BIO [($"room", $"room_type")] = Ok [mkIS $"living room" (15, 26) $"room_type" $"room"] /\
  tags_to_slots room_text room_toks room_tags BIO [] = Err EOther /\
  (tagger_ok demo_tagger /\ tags_in_alphabet (cf_scheme (demo_filler demo_tagger)) demo_tagger) /\
  crf_get_slots demo_ext (demo_filler demo_tagger) false room_text =
    Ok [mkIS $"living room" (12, 23) $"room_type" $"room"].
Proof. exact slices_case. Qed.

(** ** C29 *)
Theorem C29_round_trip : forall t, unicode t -> decode_tag (encode_tag t) = Ok t.
Proof. exact tag_round. Qed.
Print Assumptions C29_round_trip.

Theorem C29_injective : forall t t', unicode t -> unicode t' -> encode_tag t = encode_tag t' -> t = t'.
Proof. exact encode_tag_inj. Qed.
Print Assumptions C29_injective.

Theorem C29_ascii : forall t, unicode t -> forall c, In c (encode_tag t) -> base64_char c.
Proof. exact encode_tag_ascii. Qed.
Print Assumptions C29_ascii.

(** "B-é€😀", with characters of 2, 3 and 4 bytes *)
Example C29_case :
  unicode [66; 45; 233; 8364; 128512]%N /\
  encode_tag [66; 45; 233; 8364; 128512]%N = $"Qi3DqeKCrPCfmIA=" /\
  encode_tag $"B-room" = $"Qi1yb29t" /\ decode_tag $"Qi1yb29t" = Ok $"B-room" /\
  decode_tag $"Qi1yb29" = Err EOther.
Proof. exact encode_case. Qed.
