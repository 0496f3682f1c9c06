(** Concrete instances of the external functions and small engines, used by the
    examples that show the hypotheses of theorems are met. Not part of the model
    of the repository. *)
From Coq Require Import String List NArith ZArith Bool Arith.
From Verif Require Import Base Sorting F32 M_Types.
Import ListNotations.

(** A tokenizer that splits on blanks. [b], [c]: byte and character offsets;
    [cur]: characters of the current word, reversed. *)
Fixpoint demo_tok (s : str) (b c : nat) (cur : str) : list token :=
  let flush :=
    match cur with
    | [] => []
    | _ => [mkTok (rev cur) (b - byte_len cur, b) (c - length cur, c)]
    end in
  match s with
  | [] => flush
  | ch :: r => if (ch =? space)%N then flush ++ demo_tok r (b + 1) (c + 1) []
               else demo_tok r (b + utf8_len ch) (c + 1) (ch :: cur)
  end.
Definition demo_tokenize (s : str) : list token := demo_tok s 0 0 [].

Definition demo_lower_char (c : char) : char :=
  if ((65 <=? c) && (c <=? 90))%N then (c + 32)%N else c.
Definition demo_upper_char (c : char) : char :=
  if ((97 <=? c) && (c <=? 122))%N then (c - 32)%N else c.

(** A polynomial hash, for examples only. *)
Definition demo_hash (s : str) : Z :=
  fold_left (fun h c => as_i32 (h * 31 + Z.of_N c)) s 7%Z.

Definition demo_kind (s : str) : option kind :=
  if str_eqb s $"snips/number" then Some s else None.

Definition demo_ext : Ext :=
  mkExt (fun _ => demo_tokenize) (fun _ s => map tk_value (demo_tokenize s))
        (map demo_lower_char) (map demo_lower_char) (map demo_upper_char) demo_hash demo_kind demo_kind.

(** A custom entity parser matching single words of a vocabulary
    (word, resolved value, entity). *)
Definition demo_custom (voc : list (str * (str * str))) : CustomParser :=
  fun s scope _ =>
    Ok (flat_map (fun t =>
          flat_map (fun v =>
            if str_eqb (tk_value t) (fst v)
               && match scope with Some l => smem (snd (snd v)) l | None => true end
            then [mkCE (tk_value t) (fst (snd v)) [] (tk_char_range t) (snd (snd v))] else [])
          voc) (demo_tokenize s)).

(** A builtin entity parser finding numbers. *)
Definition demo_builtin : BuiltinParser :=
  fun s scope _ _ =>
    Ok (flat_map (fun t =>
          if forallb (fun c => ((48 <=? c) && (c <=? 57))%N) (tk_value t)
             && match scope with Some l => smem $"snips/number" l | None => true end
          then [mkBE (tk_value t) (tk_char_range t) (SVBuiltin (tk_value t)) [] $"snips/number"]
          else []) (demo_tokenize s)).

Definition demo_voc : list (str * (str * str)) :=
  [($"kitchen", ($"the kitchen", $"room")); ($"bedroom", ($"the bedroom", $"room"));
   ($"red", ($"red", $"color"))].

Definition demo_res : Resources :=
  mkRes demo_builtin (demo_custom demo_voc) [] None [] [$"the"; $"please"].

Definition demo_dataset : DatasetMetadata :=
  mkDS $"en" [($"room", true); ($"color", false)]
       [($"lightOn", [($"room", $"room"); ($"color", $"color")]);
        ($"setTemp", [($"degrees", $"snips/number"); ($"room", $"room")])].

(** A parser with constant answers: what [parse], [get_intents] and [get_slots] return. *)
Definition const_parser (p : outcome InternalParsingResult) (i : outcome (list IntentResult))
    (s : outcome (list InternalSlot)) : IntentParser :=
  mkIP (fun _ _ => p) (fun _ => i) (fun _ _ => s).

Definition f_of (n d : Z) : f32 := fdiv (f32_of_Z n) (f32_of_Z d).

Definition slot_kitchen : InternalSlot := mkIS $"kitchen" (16, 23) $"room" $"room".
Definition demo_input : str := $"light on in the kitchen now".

(** First parser: matches lightOn with 2/3; second one prefers setTemp. *)
Definition demo_p1 : IntentParser :=
  const_parser (Ok (mkIPR (mkIR (Some $"lightOn") (f_of 2 3)) [slot_kitchen]))
    (Ok [mkIR (Some $"lightOn") (f_of 2 3); mkIR (Some $"setTemp") (f_of 1 3); mkIR None f0])
    (Ok [slot_kitchen]).
Definition demo_p2 : IntentParser :=
  const_parser (Ok (mkIPR (mkIR (Some $"setTemp") (f_of 9 10)) []))
    (Ok [mkIR (Some $"setTemp") (f_of 9 10); mkIR None (f_of 1 20); mkIR (Some $"lightOn") (f_of 1 20)])
    (Ok []).
(** A parser that recognises nothing. *)
Definition demo_p0 : IntentParser :=
  const_parser (Ok (mkIPR (mkIR None (f_of 1 2)) [])) (Ok []) (Ok []).
(** A parser that fails. *)
Definition demo_bad : IntentParser := const_parser (Err EOther) (Err EOther) (Err EOther).

Definition demo_engine (ps : list IntentParser) : Engine := mkEngine demo_dataset ps demo_res.

(** Value of a successful outcome, to state facts about it without printing it. *)
Definition get_ok {A} (d : A) (m : outcome A) : A := match m with Ok a => a | _ => d end.
Lemma get_ok_eq {A} (d : A) m : is_ok m = true -> m = Ok (get_ok d m).
Proof. destruct m; simpl; intros; congruence. Qed.
Definition no_result : ParseResult := mkPR [] (mkIR None f0) [] [].
Lemma hd_tl_eq {A} (d : A) l : length l <> 0 -> l = hd d l :: tl l.
Proof. destruct l; simpl; congruence. Qed.

(** Slots of Properties_Engine. *)
Definition slot_mauve : InternalSlot := mkIS $"mauve" (0, 5) $"color" $"color".
Definition slot_attic : InternalSlot := mkIS $"attic" (9, 14) $"room" $"room".
Definition slot_two : InternalSlot := mkIS $"2" (4, 5) $"snips/number" $"degrees".
Definition slot_tail : InternalSlot := mkIS $"x 12" (9, 15) $"snips/number" $"degrees".

(** A parser that answers lightOn when it may. *)
Definition filtering_parser : IntentParser :=
  mkIP (fun _ wl => Ok (mkIPR (mkIR (match wl with
                                     | Some l => if smem $"lightOn" l then Some $"lightOn" else None
                                     | None => Some $"lightOn" end) f1) []))
       (fun _ => Ok [mkIR (Some $"lightOn") f1; mkIR (Some $"setTemp") fhalf])
       (fun _ _ => Ok []).
