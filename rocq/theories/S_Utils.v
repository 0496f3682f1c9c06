(** Specification of overlap resolution and placeholder substitution. *)
From Coq Require Import List ZArith Permutation.
From Verif Require Import Base M_Types M_Utils S_Base.
Import ListNotations.

(** Two ranges share a position. *)
Definition overlaps (a b : range) : Prop := exists i, in_range i a /\ in_range i b.

(** In order of position and pairwise disjoint. *)
Definition ordered_disjoint (l : list range) : Prop :=
  forall i j a b, i < j -> nth_error l i = Some a -> nth_error l j = Some b ->
    rstart a <= rstart b /\ ~ overlaps a b.

(** [kept] is a resolution of the overlaps between [items], whose texts are at
    [rng] and which have priority [prio]. *)
Definition overlap_resolution {I} (rng : I -> range) (prio : I -> Z) (items kept : list I) : Prop :=
  ordered_disjoint (map rng kept) /\
  exists discarded,
    Permutation items (kept ++ discarded) /\
    forall d, In d discarded ->
      exists k, In k kept /\ overlaps (rng d) (rng k) /\ (prio d <= prio k)%Z.

(** A list of texts to replace: (range in the text, replacement), the text being
    read from position [cur]. *)
Definition edit := (range * str)%type.

(** The ranges are non-empty, in order, disjoint and inside a text of length [n]. *)
Fixpoint edits_ok (n cur : nat) (es : list edit) : Prop :=
  match es with
  | [] => cur <= n
  | (r, _) :: rest => cur <= rstart r /\ rstart r < rend r /\ rend r <= n /\ edits_ok n (rend r) rest
  end.

(** The text where each range is replaced: the text before the first range, its
    replacement, then the rest. *)
Fixpoint apply_edits (text : str) (cur : nat) (es : list edit) : str :=
  match es with
  | [] => substring text (cur, length text)
  | (r, p) :: rest => substring text (cur, rstart r) ++ p ++ apply_edits text (rend r) rest
  end.

(** Where the replacements are in the new text: [pos] is the position in the new
    text that corresponds to [cur] in the old one. *)
Fixpoint edit_positions (cur pos : nat) (es : list edit) : list (range * range) :=
  match es with
  | [] => []
  | (r, p) :: rest =>
      let start := pos + (rstart r - cur) in
      ((start, start + length p), r) :: edit_positions (rend r) (start + length p) rest
  end.

(** Length of the text of an entity. *)
Definition text_length (e : MatchedEntity) : Z := Z.of_nat (rend (me_range e) - rstart (me_range e)).

(** Priority of a slot: number of tokens plus number of characters of its value. *)
Definition slot_priority (x : Ext) (l : lang) (s : InternalSlot) : Z :=
  Z.of_nat (length (x_tokenize x l (is_value s)) + length (is_value s)).
