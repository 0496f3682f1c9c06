(** Model of src/slot_filler/crf_utils.rs: tagging schemes, decoding of tags. *)
From Coq Require Import String List NArith ZArith Bool Arith.
From Verif Require Import Base M_Types.
Import ListNotations.

(** crf_utils.rs:11-15 *)
Definition BEGINNING_PREFIX : str := $"B-".
(** crf_utils.rs:12 *)
Definition INSIDE_PREFIX : str := $"I-".
(** crf_utils.rs:13 *)
Definition LAST_PREFIX : str := $"L-".
(** crf_utils.rs:14 *)
Definition UNIT_PREFIX : str := $"U-".
(** crf_utils.rs:15 *)
Definition OUTSIDE : str := $"O".

(** crf_utils.rs:17-22 *)
Inductive TaggingScheme := IO | BIO | BILOU.

(** crf_utils.rs:24-33.  The [u8] is a natural number. *)
Definition scheme_from_u8 (i : nat) : outcome TaggingScheme :=
  match i with
  | 0 => Ok IO
  | 1 => Ok BIO
  | 2 => Ok BILOU
  | _ => Err EOther
  end.

(** [str::starts_with] (std) *)
Fixpoint starts_with (prefix s : str) : bool :=
  match prefix, s with
  | [], _ => true
  | _ :: _, [] => false
  | p :: ps, c :: cs => (p =? c)%N && starts_with ps cs
  end.

(** crf_utils.rs:35-41; [labels[0]] panics on an empty list. *)
Definition get_substitution_label (labels : list str) : outcome str :=
  if smem OUTSIDE labels then Ok OUTSIDE else index labels 0.

(** crf_utils.rs:43-45 *)
Definition tag_name_to_slot_name (tag : str) : str := suffix_from tag 2.

(** The tests [tags[i] == OUTSIDE] of crf_utils.rs:47-121. *)
Definition is_outside (t : str) : bool := str_eqb t OUTSIDE.

(** crf_utils.rs:47-55 *)
Definition is_start_of_io_slot (tags : list str) (i : nat) : outcome bool :=
  let* t := index tags i in
  if i =? 0 then Ok (negb (is_outside t))
  else if is_outside t then Ok false
  else let* p := index tags (i - 1) in Ok (is_outside p).

(** crf_utils.rs:57-65 *)
Definition is_end_of_io_slot (tags : list str) (i : nat) : outcome bool :=
  let* t := index tags i in
  if i + 1 =? length tags then Ok (negb (is_outside t))
  else if is_outside t then Ok false
  else let* n := index tags (i + 1) in Ok (is_outside n).

(** crf_utils.rs:67-77 *)
Definition is_start_of_bio_slot (tags : list str) (i : nat) : outcome bool :=
  let* t := index tags i in
  if i =? 0 then Ok (negb (is_outside t))
  else if is_outside t then Ok false
  else if starts_with BEGINNING_PREFIX t then Ok true
  else let* p := index tags (i - 1) in Ok (is_outside p).

(** crf_utils.rs:79-85; [&&] does not look at the next tag when the first operand is
    false, and that access is in bounds anyway. *)
Definition is_end_of_bio_slot (tags : list str) (i : nat) : outcome bool :=
  let* t := index tags i in
  if i + 1 =? length tags then Ok (negb (is_outside t))
  else if is_outside t then Ok false
  else let* n := index tags (i + 1) in Ok (negb (starts_with INSIDE_PREFIX n)).

(** crf_utils.rs:87-101 *)
Definition is_start_of_bilou_slot (tags : list str) (i : nat) : outcome bool :=
  let* t := index tags i in
  if i =? 0 then Ok (negb (is_outside t))
  else if is_outside t then Ok false
  else let* p := index tags (i - 1) in
       if starts_with BEGINNING_PREFIX t || starts_with UNIT_PREFIX t
          || starts_with UNIT_PREFIX p || starts_with LAST_PREFIX p
       then Ok true else Ok (is_outside p).

(** crf_utils.rs:103-115 *)
Definition is_end_of_bilou_slot (tags : list str) (i : nat) : outcome bool :=
  let* t := index tags i in
  if i + 1 =? length tags then Ok (negb (is_outside t))
  else if is_outside t then Ok false
  else let* n := index tags (i + 1) in
       Ok (is_outside n || starts_with LAST_PREFIX t || starts_with UNIT_PREFIX t
           || starts_with BEGINNING_PREFIX n || starts_with UNIT_PREFIX n).

(** crf_utils.rs:117-121 *)
Record SlotRange := mkSR { sr_name : str; sr_range : range; sr_char_range : range }.

(** crf_utils.rs:136-148, the loop; [rest] are the tags from position [i] on, [current]
    is [current_slot_start].  The slots are returned in the order they are pushed. *)
Fixpoint tags_loop (tokens : list token) (is_start is_end : nat -> outcome bool)
    (current i : nat) (rest : list str) : outcome (list SlotRange) :=
  match rest with
  | [] => Ok []
  | tag :: rest' =>
      let* s := is_start i in
      let current := if s then i else current in
      let* e := is_end i in
      if e then
        let* first := index tokens current in
        let* last := index tokens i in
        let slot := mkSR (tag_name_to_slot_name tag)
                      (rstart (tk_range first), rend (tk_range last))
                      (rstart (tk_char_range first), rend (tk_char_range last)) in
        let* slots := tags_loop tokens is_start is_end i (i + 1) rest' in
        Ok (slot :: slots)
      else tags_loop tokens is_start is_end current (i + 1) rest'
  end.

(** crf_utils.rs:123-166 *)
Definition tags_to_slot_ranges (tokens : list token) (tags : list str) (scheme : TaggingScheme)
    : outcome (list SlotRange) :=
  match scheme with
  | IO => tags_loop tokens (is_start_of_io_slot tags) (is_end_of_io_slot tags) 0 0 tags
  | BIO => tags_loop tokens (is_start_of_bio_slot tags) (is_end_of_bio_slot tags) 0 0 tags
  | BILOU => tags_loop tokens (is_start_of_bilou_slot tags) (is_end_of_bilou_slot tags) 0 0 tags
  end.

(** crf_utils.rs:168-194 *)
Definition tags_to_slots (text : str) (tokens : list token) (tags : list str)
    (scheme : TaggingScheme) (mapping : list (str * str)) : outcome (list InternalSlot) :=
  let* ranges := tags_to_slot_ranges tokens tags scheme in
  mapM (fun s =>
          let* value := byte_slice text (sr_range s) in
          let* entity := ok_or EOther (sget (sr_name s) mapping) in
          Ok (mkIS value (sr_char_range s) entity (sr_name s))) ranges.

(** crf_utils.rs:196-218; [indexes[0]] and [last().unwrap()] panic on an empty list. *)
Definition get_scheme_prefix (i : nat) (indexes : list nat) (scheme : TaggingScheme) : outcome str :=
  match scheme with
  | IO => Ok INSIDE_PREFIX
  | BIO =>
      let* first := index indexes 0 in
      Ok (if i =? first then BEGINNING_PREFIX else INSIDE_PREFIX)
  | BILOU =>
      if length indexes =? 1 then Ok UNIT_PREFIX
      else
        let* first := index indexes 0 in
        if i =? first then Ok BEGINNING_PREFIX
        else
          let* last := index indexes (length indexes - 1) in
          Ok (if i =? last then LAST_PREFIX else INSIDE_PREFIX)
  end.
