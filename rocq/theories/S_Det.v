(** Specification vocabulary for the deterministic and lookup intent parsers. *)
From Coq Require Import List ZArith Permutation.
From Verif Require Import Base F32 M_Types S_Base S_Utils.
Import ListNotations.

(** Contract of the external tokenizer: tokens are non-empty pieces of the text, in
    order and disjoint; a token's value is the text at its character range, and its
    byte range is the same range counted in UTF-8 bytes. *)
Definition token_ok (s : str) (t : token) : Prop :=
  wf_range (length s) (tk_char_range t) /\
  tk_value t = substring s (tk_char_range t) /\
  tk_range t = (byte_len (firstn (rstart (tk_char_range t)) s),
                byte_len (firstn (rend (tk_char_range t)) s)).

Definition tokens_ok (s : str) (ts : list token) : Prop :=
  (forall t, In t ts -> token_ok s t) /\
  (forall i j a b, i < j -> nth_error ts i = Some a -> nth_error ts j = Some b ->
     rend (tk_char_range a) <= rstart (tk_char_range b)).

Definition tokenizer_ok (x : Ext) : Prop := forall l s, tokens_ok s (x_tokenize x l s).

(** [s'] is [s] where the characters at the positions that do not satisfy [keep] are
    blanks. *)
Definition blanked (keep : nat -> Prop) (s s' : str) : Prop :=
  length s' = length s /\
  forall i, i < length s ->
    (keep i -> char_at s' i = char_at s i) /\ (~ keep i -> char_at s' i = Some space).

(** Position [i] belongs to a token of [s] that is not a stop word. *)
Definition in_meaningful_token (x : Ext) (l : lang) (stop : list str) (s : str) (i : nat) : Prop :=
  exists t, In t (x_tokenize x l s) /\ in_range i (tk_char_range t) /\
            ~ In (x_normalize x (tk_value t)) stop.

(** Contract of the external regex engine: capture groups are delimited by character
    boundaries of the text, in UTF-8 bytes. *)
Definition regex_ok (r : str -> option (list (option str * option range))) : Prop :=
  forall s caps, r s = Some caps -> forall n rg, In (n, Some rg) caps ->
    exists i j, i <= j /\ j <= length s /\ rg = (byte_len (firstn i s), byte_len (firstn j s)).
