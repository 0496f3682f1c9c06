(** What the replays of the repository's unit tests (the files Tests_*.v) share: the
    test doubles of src/testutils.rs, and a tokenizer.  Not part of the model: these
    files run the model on the inputs of the repository's own tests and compare with the
    outputs those tests expect, as evidence that the model follows the code. *)
From Coq Require Import String List NArith ZArith Bool Arith.
From Flocq Require IEEE754.BinarySingleNaN.
From Verif Require Import Base Sorting F32 M_Types Demo.
Import ListNotations.
Local Open Scope list_scope.
Local Open Scope nat_scope.

(** The tokenizer of snips-nlu-utils on the sentences of the tests: maximal runs of
    letters, digits and underscores, and the signs "%", "!", "?" and pound alone; everything
    else separates words. *)
Definition word_char (c : char) : bool :=
  ((48 <=? c) && (c <=? 57) || (65 <=? c) && (c <=? 90) || (97 <=? c) && (c <=? 122) || (c =? 95)
   || (192 <=? c) && (c <=? 591) || (12352 <=? c) && (c <=? 40959))%N.

Definition sign_char (c : char) : bool := ((c =? 37) || (c =? 33) || (c =? 63) || (c =? 163))%N.

Fixpoint test_tok (s : str) (b c : nat) (cur : str) : list token :=
  let flush :=
    match cur with
    | [] => []
    | _ => [mkTok (rev cur) (b - byte_len cur, b) (c - length cur, c)]
    end in
  match s with
  | [] => flush
  | ch :: r => if word_char ch then test_tok r (b + utf8_len ch) (c + 1) (ch :: cur)
               else if sign_char ch
               then flush ++ mkTok [ch] (b, b + utf8_len ch) (c, c + 1)
                          :: test_tok r (b + utf8_len ch) (c + 1) []
               else flush ++ test_tok r (b + utf8_len ch) (c + 1) []
  end.
Definition test_tokenize (s : str) : list token := test_tok s 0 0 [].

(** Lower case without the accents that occur in the tests. *)
Definition test_normalize_char (c : char) : char :=
  if (c =? 235)%N then 101%N else if (c =? 239)%N then 105%N else demo_lower_char c.

(** [hash_str_to_i32] of snips-nlu-utils: the 64-bit FNV-1a hash of the UTF-8 bytes, its low
    half read as an [i32].  (The keys of
    data/tests/models/nlu_engine_beverage/lookup_intent_parser/intent_parser.json are the
    values of this function on the sentences the parser was trained with.) *)
Definition utf8_bytes (c : char) : list N :=
  (if c <? 128 then [c]
   else if c <? 2048 then [192 + c / 64; 128 + c mod 64]
   else if c <? 65536 then [224 + c / 4096; 128 + c / 64 mod 64; 128 + c mod 64]
   else [240 + c / 262144; 128 + c / 4096 mod 64; 128 + c / 64 mod 64; 128 + c mod 64])%N.
Definition fnv1a (s : str) : N :=
  fold_left (fun h b => (N.lxor h b * 1099511628211) mod 18446744073709551616)%N
            (flat_map utf8_bytes s) 14695981039346656037%N.
Definition test_hash (s : str) : Z := as_i32 (Z.of_N (fnv1a s)).

Definition test_ext : Ext :=
  mkExt (fun _ => test_tokenize) (fun _ s => map tk_value (test_tokenize s))
        (map test_normalize_char) (map demo_lower_char) (map demo_upper_char) test_hash
        (fun s => if str_eqb (firstn 6 s) $"snips/" then Some s else None)
        (fun s => if str_eqb (firstn 6 s) $"snips/" then Some s else None).

(** testutils.rs:77-108 *)
Definition mocked_builtin (outputs : list (str * list BuiltinEntity)) : BuiltinParser :=
  fun s _ _ _ => Ok (match sget s outputs with Some l => l | None => [] end).

(** testutils.rs:110-140 *)
Definition mocked_custom (outputs : list (str * list CustomEntity)) : CustomParser :=
  fun s _ _ => Ok (match sget s outputs with Some l => l | None => [] end).

(** testutils.rs:28-75, [SharedResourcesBuilder] *)
Definition test_resources (b : list (str * list BuiltinEntity)) (c : list (str * list CustomEntity))
    (stop_words : list str) : Resources :=
  mkRes (mocked_builtin b) (mocked_custom c) [] None [] stop_words.

Definition test_lang (s : str) : option lang := if str_eqb s $"en" then Some EN else None.

(** A parser that answers one sentence only, filtered by kind: the structs
    [TestBuiltinEntityParser] and [TestCustomEntityParser] of the tests. *)
Definition filtered_builtin (sentence : str) (es : list BuiltinEntity) : BuiltinParser :=
  fun s scope _ _ =>
    Ok (if str_eqb s sentence
        then filter (fun e => match scope with Some l => smem (be_kind e) l | None => true end) es
        else []).
Definition filtered_custom (sentence : str) (es : list CustomEntity) : CustomParser :=
  fun s scope _ =>
    Ok (if str_eqb s sentence
        then filter (fun e => match scope with Some l => smem (ce_entity e) l | None => true end) es
        else []).

(** [assert_eq!] on results: names, scores (compared as [f32]) and slots. *)
Definition slot_eqb (a b : InternalSlot) : bool :=
  str_eqb (is_value a) (is_value b) && range_eqb (is_range a) (is_range b)
  && str_eqb (is_entity a) (is_entity b) && str_eqb (is_slot_name a) (is_slot_name b).
Definition intent_eqb (a b : IntentResult) : bool :=
  match ir_name a, ir_name b with
  | Some n, Some m => str_eqb n m
  | None, None => true
  | _, _ => false
  end && feq (ir_score a) (ir_score b).
Definition parsing_eqb (a b : InternalParsingResult) : bool :=
  intent_eqb (pr_intent a) (pr_intent b) && list_eqb slot_eqb (pr_slots a) (pr_slots b).
Definition ok_eqb {A} (eqb : A -> A -> bool) (m : outcome A) (a : A) : bool :=
  match m with Ok b => eqb a b | _ => false end.

(** A decimal literal [n / 10 ^ k] as the nearest [f32]. *)
Definition dec (n : Z) (k : nat) : f32 :=
  let d := (10 ^ Z.of_nat k)%Z in
  let a := (Z.abs n * 2 ^ 100)%Z in
  let q := (2 * (a / d) + (if a mod d =? 0 then 0 else 1))%Z in
  let f := BinarySingleNaN.binary_normalize 24 128 _ _ BinarySingleNaN.mode_NE q (-101) false in
  if (n <? 0)%Z then fneg f else f.

(** testutils.rs:16-26 *)
Definition epsilon_eq (epsilon a b : f32) : bool :=
  flt (fsub a b) epsilon && flt (fneg epsilon) (fsub a b).

(** [f32::exp], by the series of the exponential at a 2048th of the argument, in fixed point
    with 160 binary digits, and eleven squarings. *)
Definition fixed_of (v : f32) : Z :=
  match v with
  | BinarySingleNaN.B754_finite s m e _ =>
      let a := Z.shiftl (Zpos m) (e + 160) in if s then (- a)%Z else a
  | _ => 0%Z
  end.
Definition fixed_mul (a b : Z) : Z := Z.shiftr (a * b) 160.
Fixpoint series (n : nat) (k : Z) (term x : Z) : Z :=
  match n with
  | 0 => term
  | S n => (term + series n (k + 1) (fixed_mul term x / k) x)%Z
  end.
Definition test_exp (v : f32) : f32 :=
  let x := Z.shiftr (fixed_of v) 11 in
  let y := series 20 1 (Z.shiftl 1 160) x in
  let z := Nat.iter 11 (fun y => fixed_mul y y) y in
  BinarySingleNaN.binary_normalize 24 128 _ _ BinarySingleNaN.mode_NE z (-160) false.
