(** Small specification vocabulary, independent of the model's helpers. *)
From Coq Require Import List Sorted.
From Verif Require Import Base.
Import ListNotations.

(** [subseq l m]: [l] is obtained from [m] by deleting elements. *)
Inductive subseq {A} : list A -> list A -> Prop :=
| subseq_nil : subseq [] []
| subseq_keep x l m : subseq l m -> subseq (x :: l) (x :: m)
| subseq_skip x l m : subseq l m -> subseq l (x :: m).

(** Character [i] of a text. *)
Definition char_at (s : str) (i : nat) : option char := nth_error s i.

(** A range that designates at least one character of a text of length [n]. *)
Definition wf_range (n : nat) (r : range) : Prop := rstart r < rend r /\ rend r <= n.

(** No position belongs to both ranges. *)
Definition in_range (i : nat) (r : range) : Prop := rstart r <= i < rend r.
Definition disjoint (a b : range) : Prop := forall i, in_range i a -> in_range i b -> False.

(** Texts designated by [r] in [s] and [r'] in [s'] are the same. *)
Definition same_text (s : str) (r : range) (s' : str) (r' : range) : Prop :=
  rend r - rstart r = rend r' - rstart r' /\
  forall k, k < rend r - rstart r ->
            char_at s (rstart r + k) = char_at s' (rstart r' + k).
