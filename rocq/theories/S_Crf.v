(** Specification vocabulary for tag sequences. *)
From Coq Require Import String List NArith ZArith.
From Verif Require Import Base M_Types M_Crf S_Base S_Utils.
Import ListNotations.

(** Token [i] has a tag other than O. *)
Definition tagged (tags : list str) (i : nat) : Prop :=
  exists t, nth_error tags i = Some t /\ t <> $"O".

Definition has_prefix (p t : str) : Prop := exists rest, t = p ++ rest.

(** Two neighbouring tagged tokens belong to different slots. *)
Definition separates (sc : TaggingScheme) (t t' : str) : Prop :=
  match sc with
  | IO => False
  | BIO => has_prefix $"B-" t'
  | BILOU => has_prefix $"L-" t \/ has_prefix $"U-" t \/ has_prefix $"B-" t' \/ has_prefix $"U-" t'
  end.

(** The tags of the scheme.  No restriction is needed for IO and BILOU. *)
Definition in_alphabet (sc : TaggingScheme) (t : str) : Prop :=
  match sc with
  | BIO => t = $"O" \/ has_prefix $"B-" t \/ has_prefix $"I-" t
  | _ => True
  end.

(** [segs]: the groups of tokens (as ranges of token indices) that form slots. *)
Definition segmentation (sc : TaggingScheme) (tags : list str) (segs : list range) : Prop :=
  (forall s, In s segs -> wf_range (length tags) s) /\
  ordered_disjoint segs /\
  (forall i, tagged tags i <-> exists s, In s segs /\ in_range i s) /\
  (forall i t t', nth_error tags i = Some t -> nth_error tags (i + 1) = Some t' ->
     tagged tags i -> tagged tags (i + 1) ->
     ((exists s, In s segs /\ in_range i s /\ in_range (i + 1) s) <-> ~ separates sc t t')).

(** From the start of the first token of the group to the end of its last token. *)
Definition spans (toks : list token) (s : range) (bytes chars : range) : Prop :=
  exists a b, nth_error toks (rstart s) = Some a /\ nth_error toks (rend s - 1) = Some b /\
    bytes = (rstart (tk_range a), rend (tk_range b)) /\
    chars = (rstart (tk_char_range a), rend (tk_char_range b)).

(** The slot made of a group of tokens; its name comes from the tag of the last token,
    without the two characters of the prefix. *)
Definition slot_of_segment (toks : list token) (tags : list str) (s : range) (r : SlotRange) : Prop :=
  spans toks s (sr_range r) (sr_char_range r) /\
  exists t, nth_error tags (rend s - 1) = Some t /\ sr_name r = skipn 2 t.

(** Token [i] ends a slot, and its tag is [t]. *)
Definition ends_slot (sc : TaggingScheme) (tags : list str) (i : nat) (t : str) : Prop :=
  nth_error tags i = Some t /\ t <> $"O" /\
  forall t', nth_error tags (i + 1) = Some t' -> t' = $"O" \/ separates sc t t'.

(** The slots (token range, name) of a sentence of [n] tokens. *)
Definition slots_ok (n : nat) (slots : list (range * str)) : Prop :=
  (forall s, In s (map fst slots) -> wf_range n s) /\ ordered_disjoint (map fst slots).

(** Tags of a sentence of [n] tokens with the given slots: the tokens of a slot have the
    prefix of the scheme followed by the name of the slot, the others have O. *)
Definition encodes (sc : TaggingScheme) (n : nat) (slots : list (range * str)) (tags : list str) : Prop :=
  length tags = n /\
  forall i, i < n ->
    (forall s name, In (s, name) slots -> in_range i s ->
       exists p, get_scheme_prefix i (seq (rstart s) (rend s - rstart s)) sc = Ok p /\
                 nth_error tags i = Some (p ++ name)) /\
    ((forall s, In s (map fst slots) -> ~ in_range i s) -> nth_error tags i = Some $"O").

(** A token that belongs to no slot lies between any two of them. *)
Definition not_adjacent (slots : list (range * str)) : Prop :=
  forall i j a b, i < j -> nth_error slots i = Some a -> nth_error slots j = Some b ->
    rend (fst a) < rstart (fst b).

(** The decoded slot is the given one. *)
Definition same_slot_as (toks : list token) (s : range * str) (r : SlotRange) : Prop :=
  sr_name r = snd s /\ spans toks (fst s) (sr_range r) (sr_char_range r).

(** The slot [s] is the text of the group [seg], named by its last tag, and declared. *)
Definition text_slot (text : str) (toks : list token) (tags : list str) (mapping : list (str * str))
    (seg : range) (s : InternalSlot) : Prop :=
  (exists bytes, spans toks seg bytes (is_range s)) /\ wf_range (length text) (is_range s) /\
  is_value s = substring text (is_range s) /\
  (exists t, nth_error tags (rend seg - 1) = Some t /\ is_slot_name s = skipn 2 t) /\
  sget (is_slot_name s) mapping = Some (is_entity s).
