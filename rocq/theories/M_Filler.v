(** Model of src/slot_filler/crf_slot_filler.rs, and of the two encodings it uses. *)
From Coq Require Import String List NArith ZArith Bool Arith.
From Flocq Require Import Core.Core IEEE754.BinarySingleNaN.
From Verif Require Import Base M_Types M_Crf M_Features.
Import ListNotations.

(** ** UTF-8 (std): bytes of a string, and [String::from_utf8] *)
Definition byte := N.

(** [str::as_bytes] (external), used in crf_slot_filler.rs:180. *)
Definition utf8_char (c : char) : list byte :=
  (if c <? 128 then [c]
   else if c <? 2048 then [192 + c / 64; 128 + c mod 64]
   else if c <? 65536 then [224 + c / 4096; 128 + (c / 64) mod 64; 128 + c mod 64]
   else [240 + c / 262144; 128 + (c / 4096) mod 64; 128 + (c / 64) mod 64; 128 + c mod 64])%N.
(** [str::as_bytes] (external), used in crf_slot_filler.rs:180. *)
Definition utf8_encode (s : str) : list byte := flat_map utf8_char s.

(** A continuation byte, and its six bits.  Helper of [utf8_decode]. *)
Definition is_cont (b : byte) : bool := ((128 <=? b) && (b <? 192))%N.

(** A Unicode scalar value: what a Rust [char] can be.  Helper of [utf8_decode]. *)
Definition is_scalar (c : N) : bool :=
  ((c <? 55296) || ((57344 <=? c) && (c <? 1114112)))%N.

(** Rejects overlong encodings, surrogates and values above 10FFFF, as [from_utf8] does.
    [String::from_utf8] (external), used in crf_slot_filler.rs:174-177. *)
Fixpoint utf8_decode (l : list byte) : option str :=
  match l with
  | [] => Some []
  | b0 :: r0 =>
      if (b0 <? 128)%N then option_map (cons b0) (utf8_decode r0)
      else match r0 with
      | [] => None
      | b1 :: r1 =>
          if negb (is_cont b1) then None
          else if ((192 <=? b0) && (b0 <? 224))%N then
            let c := ((b0 - 192) * 64 + (b1 - 128))%N in
            if (128 <=? c)%N then option_map (cons c) (utf8_decode r1) else None
          else match r1 with
          | [] => None
          | b2 :: r2 =>
              if negb (is_cont b2) then None
              else if ((224 <=? b0) && (b0 <? 240))%N then
                let c := ((b0 - 224) * 4096 + (b1 - 128) * 64 + (b2 - 128))%N in
                if ((2048 <=? c)%N && is_scalar c)%bool then option_map (cons c) (utf8_decode r2) else None
              else match r2 with
              | [] => None
              | b3 :: r3 =>
                  if negb (is_cont b3) then None
                  else if (240 <=? b0)%N then
                    let c := ((b0 - 240) * 262144 + (b1 - 128) * 4096 + (b2 - 128) * 64 + (b3 - 128))%N in
                    if ((65536 <=? c)%N && is_scalar c)%bool then option_map (cons c) (utf8_decode r3) else None
                  else None
              end
          end
      end
  end.

(** ** The crate base64, standard alphabet with padding

    [b64_decode] accepts exactly the canonical encodings.  The crate accepts more (missing
    padding); the labels of a model are written by an encoder, so they are canonical. *)
Definition b64_char (v : N) : char :=
  (if v <? 26 then 65 + v
   else if v <? 52 then 71 + v
   else if v <? 62 then v - 4
   else if v =? 62 then 43 else 47)%N.
(** The alphabet of the crate base64 (external). *)
Definition b64_value (c : char) : option N :=
  (if (65 <=? c) && (c <=? 90) then Some (c - 65)
   else if (97 <=? c) && (c <=? 122) then Some (c - 71)
   else if (48 <=? c) && (c <=? 57) then Some (c + 4)
   else if c =? 43 then Some 62
   else if c =? 47 then Some 63 else None)%N.
(** The padding of the crate base64 (external): the sign "=". *)
Definition pad : char := 61%N.

(** [base64::encode] (external), used in crf_slot_filler.rs:180. *)
Fixpoint b64_encode (l : list byte) : str :=
  (match l with
   | [] => []
   | [a] => [b64_char (a / 4); b64_char (a mod 4 * 16); pad; pad]
   | [a; b] => [b64_char (a / 4); b64_char (a mod 4 * 16 + b / 16); b64_char (b mod 16 * 4); pad]
   | a :: b :: c :: r =>
       b64_char (a / 4) :: b64_char (a mod 4 * 16 + b / 16) :: b64_char (b mod 16 * 4 + c / 64)
       :: b64_char (c mod 64) :: b64_encode r
   end)%N.

(** [base64::decode] (external), used in crf_slot_filler.rs:174-177. *)
Fixpoint b64_decode (s : str) : option (list byte) :=
  match s with
  | [] => Some []
  | c0 :: c1 :: c2 :: c3 :: r =>
      match b64_value c0, b64_value c1 with
      | Some v0, Some v1 =>
          let b0 := (v0 * 4 + v1 / 16)%N in
          match b64_value c2, b64_value c3 with
          | Some v2, Some v3 =>
              option_map (fun bs => b0 :: (v1 mod 16 * 16 + v2 / 4)%N :: (v2 mod 4 * 64 + v3)%N :: bs) (b64_decode r)
          | Some v2, None =>
              if ((c3 =? pad)%N && (v2 mod 4 =? 0)%N && match r with [] => true | _ => false end)%bool
              then Some [b0; (v1 mod 16 * 16 + v2 / 4)%N] else None
          | None, None =>
              if ((c2 =? pad)%N && (c3 =? pad)%N && (v1 mod 16 =? 0)%N && match r with [] => true | _ => false end)%bool
              then Some [b0] else None
          | None, Some _ => None
          end
      | _, _ => None
      end
  | _ => None
  end.

(** crf_slot_filler.rs:174-177 *)
Definition decode_tag (tag : str) : outcome str :=
  let* bytes := ok_or EOther (b64_decode tag) in
  ok_or EOther (utf8_decode bytes).

(** crf_slot_filler.rs:179-181 *)
Definition encode_tag (tag : str) : str := b64_encode (utf8_encode tag).

(** ** The slot filler *)
(** The type of probabilities, crf_slot_filler.rs:116. *)
Definition f64 : Set := binary_float 53 1024.
(** Literals such as those of crf_slot_filler.rs:116-152. *)
Definition f64_of_Z (z : Z) : f64 := binary_normalize 53 1024 eq_refl eq_refl mode_NE z 0 false.

(** Features of a sentence: for each token, pairs (key, value).
    crf_slot_filler.rs:156-168 computes them. *)
Definition features := list (list (str * str)).

(** [crfsuite::Tagger] (external): labels, best tags, and probability of tags, for the
    features that are set under the same lock. *)
Record Tagger := mkTagger {
  tg_labels : outcome (list str);
  tg_tag : features -> outcome (list str);
  tg_probability : features -> list str -> outcome f64
}.

(** crf_slot_filler.rs:25-31.  The mutex around the tagger is represented by the flag
    [poisoned] given to each call: a panic while the lock is held sets it for ever. *)
Record CrfFiller := mkCF {
  cf_lang : lang;
  cf_scheme : TaggingScheme;
  cf_tagger : option Tagger;
  cf_processor : option (list FeatureOffsetter);
  cf_mapping : list (str * str)
}.

(** src/models/slot_filler.rs:7-20 *)
Record SlotFillerModel := mkSFM {
  sm_language : str;
  sm_mapping : list (str * str);
  sm_crf_file : option str;
  sm_scheme : nat;
  sm_factories : list FeatureFactory
}.

(** crf_slot_filler.rs:34-76, after the model file was read; [load_tagger] is
    [CRFSuiteTagger::create_from_file], [lang_of] is [Language::from_str]. *)
Definition crf_new (x : Ext) (shape : str -> str) (lang_of : str -> option lang)
    (load_tagger : str -> outcome Tagger) (m : SlotFillerModel) (res : Resources) : outcome CrfFiller :=
  let* scheme := scheme_from_u8 (sm_scheme m) in
  let* tp := match sm_crf_file m with
             | Some f =>
                 let* t := load_tagger f in
                 let* p := processor_new x shape (sm_factories m) res in
                 Ok (Some t, Some p)
             | None => Ok (None, None)
             end in
  let* l := ok_or EOther (lang_of (sm_language m)) in
  Ok (mkCF l scheme (fst tp) (snd tp) (sm_mapping m)).

(** crf_slot_filler.rs:84-114; [lock] fails when the mutex is poisoned. *)
Definition crf_get_slots (x : Ext) (cf : CrfFiller) (poisoned : bool) (text : str)
    : outcome (list InternalSlot) :=
  match cf_tagger cf, cf_processor cf with
  | Some tagger, Some processor =>
      let tokens := x_tokenize x (cf_lang cf) text in
      match tokens with
      | [] => Ok []
      | _ =>
          let* fs := compute_features processor tokens in
          if poisoned then Err EOther
          else
            let* raw := tg_tag tagger fs in
            let* tags := mapM decode_tag raw in
            tags_to_slots text tokens tags (cf_scheme cf) (cf_mapping cf)
      end
  | _, _ => Ok []
  end.

(** crf_slot_filler.rs:131-141: tags unknown to the tagger are replaced, then encoded. *)
Definition clean_tags (labels tags : list str) : outcome (list str) :=
  mapM (fun t => let* t' := if smem t labels then Ok t else get_substitution_label labels in
                 Ok (encode_tag t')) tags.

(** crf_slot_filler.rs:116-152: the result, and whether the mutex is poisoned afterwards.
    The lock is held from line 121 to the end, so a panic of lines 124-143 poisons it. *)
Definition crf_sequence_probability (cf : CrfFiller) (poisoned : bool) (tokens : list token) (tags : list str)
    : outcome f64 * bool :=
  match cf_tagger cf, cf_processor cf with
  | Some tagger, Some processor =>
      match compute_features processor tokens with
      | Ok fs =>
          if poisoned then (Err EOther, true)
          else
            let r := let* raw := tg_labels tagger in
                     let* labels := mapM decode_tag raw in
                     let* cleaned := clean_tags labels tags in
                     tg_probability tagger fs cleaned in
            (r, match r with Panic => true | _ => false end)
      | Err e => (Err e, poisoned)
      | Panic => (Panic, poisoned)
      end
  | _, _ =>
      (Ok (if existsb (fun t => negb (is_outside t)) tags then f64_of_Z 0 else f64_of_Z 1), poisoned)
  end.

(** crf_slot_filler.rs:156-168 *)
Definition crf_compute_features (x : Ext) (cf : CrfFiller) (text : str) : outcome features :=
  match x_tokenize x (cf_lang cf) text with
  | [] => Ok []
  | tokens =>
      match cf_processor cf with
      | Some p => compute_features p tokens
      | None => Ok (map (fun _ => []) tokens)
      end
  end.
