(** Specification vocabulary for the slot filler and its features. *)
From Coq Require Import String List NArith ZArith.
From Verif Require Import Base M_Types M_Crf M_Features M_Filler S_Base S_Utils S_Det S_Crf.
Import ListNotations.

(** What a Rust string can contain: Unicode scalar values. *)
Definition unicode (s : str) : Prop :=
  forall c, In c s -> (c < 55296 \/ (57344 <= c /\ c < 1114112))%N.

(** Letters, digits, '+', '/' and '='. *)
Definition base64_char (c : char) : Prop :=
  (65 <= c <= 90 \/ 97 <= c <= 122 \/ 48 <= c <= 57 \/ c = 43 \/ c = 47 \/ c = 61)%N.

(** Tokens in order of position, each as long as its character range. *)
Definition laid_out (toks : list token) : Prop :=
  (forall t, In t toks -> rstart (tk_char_range t) <= rend (tk_char_range t) /\
             length (tk_value t) = rend (tk_char_range t) - rstart (tk_char_range t)) /\
  (forall i j a b, i < j -> nth_error toks i = Some a -> nth_error toks j = Some b ->
     rend (tk_char_range a) <= rstart (tk_char_range b)).

(** [s] has each token at its own range, blanks elsewhere, and ends with the last token. *)
Definition shows_tokens (toks : list token) (s : str) : Prop :=
  (forall t, In t toks -> rend (tk_char_range t) <= length s /\ substring s (tk_char_range t) = tk_value t) /\
  (forall i, i < length s -> (forall t, In t toks -> ~ in_range i (tk_char_range t)) -> char_at s i = Some space) /\
  (exists before t, toks = before ++ [t] /\ length s = rend (tk_char_range t)).

(** The key of a feature looked up [o] tokens away. *)
Definition key_of (f : Feature) (o : Z) : str :=
  if Z.eq_dec o 0 then ft_name f else ft_name f ++ $"[" ++ show_signed o ++ $"]".

(** A 32-bit signed integer. *)
Definition is_i32 (z : Z) : Prop := (- 2 ^ 31 <= z < 2 ^ 31)%Z.

(** Contract of the CRF library: one tag per token. *)
Definition tagger_ok (t : Tagger) : Prop :=
  forall fs tags, tg_tag t fs = Ok tags -> length tags = length fs.

(** The tags it predicts belong to the scheme. *)
Definition tags_in_alphabet (sc : TaggingScheme) (t : Tagger) : Prop :=
  forall fs raw tags, tg_tag t fs = Ok raw -> mapM decode_tag raw = Ok tags -> Forall (in_alphabet sc) tags.

(** The label whose score stands for a tag: itself when the model knows it, otherwise O
    if the model knows O, otherwise its first label. *)
Definition scored_as (labels : list str) (t t' : str) : Prop :=
  (In t labels /\ t' = t) \/
  (~ In t labels /\ In $"O" labels /\ t' = $"O") \/
  (~ In t labels /\ ~ In $"O" labels /\ exists rest, labels = t' :: rest).

(** The parsers never panic. *)
Definition parsers_never_panic (res : Resources) : Prop :=
  (forall s f u n, rs_builtin res s f u n <> Panic) /\ (forall s f n, rs_custom res s f n <> Panic).
Definition tagger_never_panics (t : Tagger) : Prop := forall fs, tg_tag t fs <> Panic.

(** Sizes of n-grams are such that a position plus a size fits in 64 bits. *)
Definition sizes_fit (n : nat) (factories : list FeatureFactory) : Prop :=
  forall f z, In f factories -> sget $"n" (ff_args f) = Some (JNum z) -> (z + Z.of_nat n < 2 ^ 64)%Z.

(** Token [j] shares a character with [r]. *)
Definition touches (toks : list token) (r : range) (j : nat) : Prop :=
  exists t, nth_error toks j = Some t /\ overlaps (tk_char_range t) r.

(** The prefix of the scheme for token [i] of the entity at [r], which touches the tokens
    [first] to [last]. *)
Definition position_prefix (sc : TaggingScheme) (first last i : nat) : str :=
  match sc with
  | IO => $"I-"
  | BIO => if Nat.eq_dec i first then $"B-" else $"I-"
  | BILOU => if Nat.eq_dec first last then $"U-"
             else if Nat.eq_dec i first then $"B-"
             else if Nat.eq_dec i last then $"L-" else $"I-"
  end.

(** [v] is the mark of token [i] for the entities found at [ranges], in this order. *)
Definition entity_mark (sc : TaggingScheme) (toks : list token) (ranges : list range) (i : nat)
    (v : option str) : Prop :=
  (v = None /\ forall r, In r ranges -> ~ touches toks r i) \/
  (exists before r after first last,
     ranges = before ++ r :: after /\ (forall r', In r' before -> ~ touches toks r' i) /\
     touches toks r i /\ first <= i <= last /\ touches toks r first /\ touches toks r last /\
     (forall j, touches toks r j -> first <= j <= last) /\
     v = Some (position_prefix sc first last i)).
