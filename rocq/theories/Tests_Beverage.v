(** The tests of the repository that load data/tests/models/nlu_engine_beverage, replayed on
    the model: src/nlu_engine.rs:559-905 ([test_parse] to [test_get_slots], the parts about this
    directory), src/intent_parser/probabilistic_intent_parser.rs:95-163,
    src/slot_filler/crf_slot_filler.rs:183-217, [test_load_from_path] of
    lookup_intent_parser.rs and of deterministic_intent_parser.rs.  The files are those of
    the repository (Tests_Files).  Doubles stand for serde_json, crfsuite and the entity parsers. *)
From Coq Require Import String List NArith ZArith Bool Arith.
From Verif Require Import Base Sorting F32 M_Types M_Utils M_Engine M_Det M_Lookup M_Res M_Feat M_Prob
  M_Features M_Filler M_Cache M_Fs M_Json M_Load Demo Demo_Load Tests_Base Tests_Features Tests_Classifier
  Tests_Det Tests_Files.
Import ListNotations.
Local Open Scope list_scope.
Local Open Scope nat_scope.

(** ** A reader of json texts *)

Definition white (c : char) : bool := (c =? 32)%N || (c =? 10)%N || (c =? 13)%N || (c =? 9)%N.
Fixpoint skip (s : str) : str :=
  match s with c :: r => if white c then skip r else s | [] => [] end.

(** The characters of a string literal up to its closing quote; no \u escapes. *)
Fixpoint read_string (s : str) : option (str * str) :=
  match s with
  | 34%N :: r => Some ([], r)
  | 92%N :: c :: r =>
      let c := if (c =? 110)%N then 10%N else if (c =? 116)%N then 9%N else c in
      option_map (fun p => (c :: fst p, snd p)) (read_string r)
  | c :: r => option_map (fun p => (c :: fst p, snd p)) (read_string r)
  | [] => None
  end.

Definition number_char (c : char) : bool :=
  ((48 <=? c) && (c <=? 57) || (c =? 45) || (c =? 43) || (c =? 46) || (c =? 101) || (c =? 69))%N.
Fixpoint span (p : char -> bool) (s : str) : str * str :=
  match s with
  | c :: r => if p c then (let '(a, b) := span p r in (c :: a, b)) else ([], s)
  | [] => ([], [])
  end.
Definition digits (s : str) : Z :=
  fold_left (fun z c => (10 * z + (Z.of_N c - 48))%Z) s 0%Z.
Definition integer (s : str) : Z :=
  match s with 45%N :: r => (- digits r)%Z | 43%N :: r => digits r | _ => digits s end.
Definition read_number (s : str) : json :=
  if existsb (fun c => (c =? 46) || (c =? 101) || (c =? 69))%N s then JFloat s else JNum (integer s).

Fixpoint literal (w s : str) : option str :=
  match w, s with
  | [], _ => Some s
  | a :: w, b :: s => if (a =? b)%N then literal w s else None
  | _, [] => None
  end.

(** [n]: enough steps.  [JArr] and [JObj] collect values until the bracket is closed. *)
Fixpoint read_value (n : nat) (s : str) : option (json * str) :=
  match n with
  | 0 => None
  | S n =>
      match skip s with
      | 34%N :: r => option_map (fun p => (JStr (fst p), snd p)) (read_string r)
      | 91%N :: r => match skip r with
                     | 93%N :: r' => Some (JArr [], r')
                     | _ => option_map (fun p => (JArr (fst p), snd p)) (read_items n r)
                     end
      | 123%N :: r => match skip r with
                      | 125%N :: r' => Some (JObj [], r')
                      | _ => option_map (fun p => (JObj (fst p), snd p)) (read_fields n r)
                      end
      | (110%N :: r) as s => option_map (fun r => (JNull, r)) (literal $"null" s)
      | (116%N :: r) as s => option_map (fun r => (JBool true, r)) (literal $"true" s)
      | (102%N :: r) as s => option_map (fun r => (JBool false, r)) (literal $"false" s)
      | s => match span number_char s with
             | ([], _) => None
             | (t, r) => Some (read_number t, r)
             end
      end
  end
with read_items (n : nat) (s : str) : option (list json * str) :=
  match n with
  | 0 => None
  | S n =>
      match read_value n s with
      | Some (v, r) =>
          match skip r with
          | 44%N :: r => option_map (fun p => (v :: fst p, snd p)) (read_items n r)
          | 93%N :: r => Some ([v], r)
          | _ => None
          end
      | None => None
      end
  end
with read_fields (n : nat) (s : str) : option (list (str * json) * str) :=
  match n with
  | 0 => None
  | S n =>
      match skip s with
      | 34%N :: r =>
          match read_string r with
          | Some (k, r) =>
              match skip r with
              | 58%N :: r =>
                  match read_value n r with
                  | Some (v, r) =>
                      match skip r with
                      | 44%N :: r => option_map (fun p => ((k, v) :: fst p, snd p)) (read_fields n r)
                      | 125%N :: r => Some ([(k, v)], r)
                      | _ => None
                      end
                  | None => None
                  end
              | _ => None
              end
          | None => None
          end
      | _ => None
      end
  end.
Definition read_document (s : str) : option json :=
  match read_value (S (length s)) s with
  | Some (j, r) => match skip r with [] => Some j | _ => None end
  | None => None
  end.

(** A number as the nearest [f32]. *)
Definition test_f32 (j : json) : option f32 :=
  match j with
  | JNum z => Some (dec z 0)
  | JFloat s =>
      let neg := match s with 45%N :: _ => true | _ => false end in
      let s := match s with 45%N :: r => r | _ => s end in
      let '(whole, r) := span (fun c => (48 <=? c) && (c <=? 57))%N s in
      let '(decimals, r) := match r with
                            | 46%N :: r => span (fun c => (48 <=? c) && (c <=? 57))%N r
                            | _ => ([], r)
                            end in
      let e := match r with _ :: r => integer r | [] => 0%Z end in
      let m := digits (whole ++ decimals) in
      let m := if neg then (- m)%Z else m in
      let k := (Z.of_nat (length decimals) - e)%Z in
      Some (if (0 <=? k)%Z then dec m (Z.to_nat k) else dec (m * 10 ^ (- k))%Z 0)
  | _ => None
  end.

(** ** A tagger: the labels with the highest sum of weights *)

Definition weights (l : list (string * string * Z)) : list (str * str * Z) :=
  map (fun w => let '(a, b, z) := w in ($a, $b, z)) l.
Definition weight (l : list (str * str * Z)) (a b : str) : Z :=
  match find (fun w => let '(c, d, _) := w in str_eqb a c && str_eqb b d) l with
  | Some (_, _, z) => z
  | None => 0%Z
  end.
Definition best (l : list (Z * list str)) : Z * list str :=
  match l with
  | [] => (0%Z, [])
  | a :: r => fold_left (fun a b => if (fst a <? fst b)%Z then b else a) r a
  end.
Definition viterbi (labels : list str) (states transitions : list (str * str * Z)) (fs : features) : list str :=
  let state (attributes : list (str * str)) (label : str) : Z :=
    fold_left Z.add (map (fun kv => weight states (fst kv ++ $":" ++ snd kv) label) attributes) 0%Z in
  let step (paths : list (Z * list str)) (attributes : list (str * str)) : list (Z * list str) :=
    map (fun label =>
           let '(z, p) := best (map (fun zp => ((fst zp + match snd zp with
                                                          | l :: _ => weight transitions l label
                                                          | [] => 0
                                                          end)%Z, snd zp)) paths) in
           ((z + state attributes label)%Z, label :: p)) labels in
  rev (snd (best (fold_left step fs [(0%Z, [])]))).
Definition crf (labels : list string) (states transitions : list (string * string * Z)) : Tagger :=
  let ls := map (fun s => $s) labels in
  mkTagger (Ok ls) (fun fs => Ok (viterbi ls (weights states) (weights transitions) fs))
    (fun _ _ => Err EOther).

(** ** The entity parsers *)

(** The occurrences of some words among the tokens.  The rustling parser reads a number also
    as a temperature or a date when it is asked for these kinds only: the attributes of
    the two files *.crfsuite show it. *)
Definition number_kind (scope : option (list kind)) : option kind :=
  match scope with
  | None => Some $"snips/number"
  | Some l => find (fun k => smem k l) [ $"snips/number"; $"snips/temperature"; $"snips/datetime";
                                         $"snips/datePeriod"; $"snips/time" ]
  end.
Definition numbers (s : str) (scope : option (list kind)) (_ : nat) : outcome (list BuiltinEntity) :=
  Ok (match number_kind scope with
      | Some k => flat_map (fun t => match sget (tk_value t) [($"one", $"1"); ($"two", $"2")] with
                                     | Some v => [mkBE (tk_value t) (tk_char_range t) (SVBuiltin v) [] k]
                                     | None => []
                                     end) (test_tokenize s)
      | None => []
      end).
Definition temperatures (s : str) (scope : option (list str)) (_ : nat) : outcome (list CustomEntity) :=
  Ok (if match scope with Some l => smem $"Temperature" l | None => true end
      then flat_map (fun t => if smem (tk_value t) [ $"hot"; $"cold"; $"boiling" ]
                              then [mkCE (tk_value t) (tk_value t) [] (tk_char_range t) $"Temperature"]
                              else []) (test_tokenize s)
      else []).

(** ** The engine *)

Definition beverage_tree : fs :=
  files (map (fun f => (at_ ("bev/" ++ fst f), $(snd f))) beverage_files).
Definition beverage_dir : path := components $"bev".

(** The crate regex refuses patterns that are too large. *)
Definition small_compile (pattern : str) : outcome Regex :=
  if length pattern <=? 1000 then test_compile pattern else Err EOther.
Definition test_loader : Loader :=
  mkLoader read_document test_f32 test_lang (fun _ => $"en") small_compile
    (fun _ _ => Ok numbers) (fun _ _ => Ok temperatures)
    (fun _ p => if list_eqb str_eqb (resolve p)
                     (at_ "bev/probabilistic_intent_parser/slot_filler_0/model55imurmx.crfsuite")
                then Ok (crf coffee_labels coffee_states coffee_transitions)
                else if list_eqb str_eqb (resolve p)
                          (at_ "bev/probabilistic_intent_parser/slot_filler_1/model8a9dqxnp.crfsuite")
                then Ok (crf tea_labels tea_states tea_transitions)
                else Err EIo).

Definition beverage (o : HashOrder) : outcome Engine :=
  from_path test_ext test_shape test_ngrams test_math test_loader (fun _ _ => o) (fun _ _ => o)
    beverage_tree beverage_dir.

Definition orders_tried : list HashOrder := [id_order; rev_order].
Definition in_engine {A} (f : HashOrder -> Engine -> outcome A) : list (outcome A) :=
  map (fun o => let* en := beverage o in f o en) orders_tried.

Definition name_and_slots (r : ParseResult) : option str * list Slot := (ir_name (ps_intent r), ps_slots r).
Definition cups (text : str) (r : range) : Slot :=
  mkSlot text (SVBuiltin $"2") [] r $"snips/number" $"number_of_cups" None.
Definition hot (r : range) : Slot :=
  mkSlot $"hot" (SVCustom $"hot") [] r $"Temperature" $"beverage_temperature" None.

(** ** nlu_engine.rs *)

Definition two_coffees : str := $"Make me two cups of coffee please".

Example test_parse :
  in_engine (fun o en => let* r := parse test_ext o o en two_coffees None None in Ok (name_and_slots r))
  = map (fun _ => Ok (Some $"MakeCoffee", [cups $"two" (8, 11)])) orders_tried.
Proof. vm_compute. reflexivity. Qed.

Definition intent_of (whitelist blacklist : option (list str)) : list (outcome (option str)) :=
  in_engine (fun o en => let* r := parse test_ext o o en two_coffees whitelist blacklist in
                         Ok (ir_name (ps_intent r))).

Example test_parse_with_whitelist_and_blacklist :
  map (fun q => intent_of (fst q) (snd q))
    [(Some [ $"MakeTea" ], None); (None, Some [ $"MakeCoffee" ]);
     (Some [ $"MakeCoffee"; $"MakeTea" ], Some [ $"MakeCoffee" ]);
     (Some [ $"MakeCoffee" ], Some [ $"MakeChocolate" ]);
     (Some [ $"MakeChocolate" ], Some [ $"MakeCoffee" ])]
  = map (fun a => map (fun _ => a) orders_tried)
      [Ok (Some $"MakeTea"); Ok (Some $"MakeTea"); Ok (Some $"MakeTea"); Err EOther; Err EOther].
Proof. vm_compute. reflexivity. Qed.

(** The result without its scores. *)
Definition unscored (r : ParseResult) : str * option str * list Slot * list (option str * list Slot) :=
  (ps_input r, ir_name (ps_intent r), ps_slots r,
   map (fun a => (ir_name (al_intent a), al_slots a)) (ps_alternatives r)).

Example test_parse_with_intents_alternatives :
  in_engine (fun o en => let* r := parse_with_alternatives test_ext o o en two_coffees None None 1 0 in
                         Ok (unscored r))
  = map (fun _ => Ok (two_coffees, Some $"MakeCoffee", [cups $"two" (8, 11)],
                      [(Some $"MakeTea", [cups $"two" (8, 11)])])) orders_tried.
Proof. vm_compute. reflexivity. Qed.

Example test_parse_with_whitelist_and_intents_alternatives :
  in_engine (fun o en => let* r := parse_with_alternatives test_ext o o en two_coffees
                                     (Some [ $"MakeCoffee" ]) None 1 0 in Ok (unscored r))
  = map (fun _ => Ok (two_coffees, Some $"MakeCoffee", [cups $"two" (8, 11)], [(None, [])])) orders_tried.
Proof. vm_compute. reflexivity. Qed.

Definition hot_teas : str := $"Make me two hot cups of tea".

Example test_get_intents :
  in_engine (fun o en => let* l := get_intents o en hot_teas in Ok (map ir_name l))
  = map (fun _ => Ok [Some $"MakeTea"; None; Some $"MakeCoffee"]) orders_tried.
Proof. vm_compute. reflexivity. Qed.

Example test_get_slots :
  in_engine (fun o en => get_slots test_ext en hot_teas $"MakeTea")
  = map (fun _ => Ok [cups $"two" (8, 11); hot (12, 15)]) orders_tried.
Proof. vm_compute. reflexivity. Qed.

(** ** The units on their own *)

Definition unit_dir (s : string) : path := components $("bev/" ++ s).
Definition in_unit {A B} (load : HashOrder -> Resources -> outcome A) (f : HashOrder -> A -> outcome B)
    : list (outcome B) :=
  map (fun o => let* res := load_engine_shared_resources test_ext test_loader (fun _ _ => o) (fun _ _ => o)
                              beverage_tree beverage_dir in
                let* a := load o res in f o a) orders_tried.
Definition internal (r : InternalParsingResult) : option str * list InternalSlot :=
  (ir_name (pr_intent r), pr_slots r).
Definition two_cups_at (r : range) : InternalSlot := mkIS $"two" r $"snips/number" $"number_of_cups".

(** lookup_intent_parser.rs *)
Example lookup_test_load_from_path :
  in_unit (fun o => load_lookup test_loader (fun _ _ => o) (fun _ _ => o) beverage_tree
                      (unit_dir "lookup_intent_parser"))
    (fun o p => let* r := lookup_parse test_ext o p $"make two cup of coffee" None in Ok (internal r))
  = map (fun _ => Ok (Some $"MakeCoffee", [two_cups_at (5, 8)])) orders_tried.
Proof. vm_compute. reflexivity. Qed.

(** deterministic_intent_parser.rs *)
Example deterministic_test_load_from_path :
  in_unit (fun o => load_deterministic test_ext test_loader (fun _ _ => o) (fun _ _ => o) beverage_tree
                      (unit_dir "deterministic_intent_parser"))
    (fun o p => let* r := det_parse test_ext o p $"make two cup of coffee" None in Ok (internal r))
  = map (fun _ => Ok (Some $"MakeCoffee", [two_cups_at (5, 8)])) orders_tried.
Proof. vm_compute. reflexivity. Qed.

(** log_reg_intent_classifier.rs *)
Example classifier_test_load_from_path :
  in_unit (fun o => load_classifier test_ext test_ngrams test_loader (fun _ _ => o) (fun _ _ => o) beverage_tree
                      (unit_dir "probabilistic_intent_parser/intent_classifier"))
    (fun o c => let* r := cl_get_intent test_math c $"Make me one cup of tea please" None in Ok (ir_name r))
  = map (fun _ => Ok (Some $"MakeTea")) orders_tried.
Proof. vm_compute. reflexivity. Qed.

(** crf_slot_filler.rs *)
Example filler_test_load_from_path :
  in_unit (fun o => load_crf test_ext test_shape test_loader (fun _ _ => o) beverage_tree
                      (unit_dir "probabilistic_intent_parser/slot_filler_0"))
    (fun o c => crf_get_slots test_ext c false $"make me two cups of coffee")
  = map (fun _ => Ok [two_cups_at (8, 11)]) orders_tried.
Proof. vm_compute. reflexivity. Qed.

(** probabilistic_intent_parser.rs *)
Definition in_probabilistic {A} (f : ProbParser -> outcome A) : list (outcome A) :=
  in_unit (fun o => load_probabilistic test_ext test_shape test_ngrams test_math test_loader (fun _ _ => o)
                      (fun _ _ => o) beverage_tree (unit_dir "probabilistic_intent_parser"))
    (fun _ => f).

Example probabilistic_test_parse :
  in_probabilistic (fun p => let* r := prob_parse p $"make me two cups of coffee" None in Ok (internal r))
  = map (fun _ => Ok (Some $"MakeCoffee", [two_cups_at (8, 11)])) orders_tried.
Proof. vm_compute. reflexivity. Qed.

Example probabilistic_test_get_slots :
  in_probabilistic (fun p => prob_get_slots p $"make me two hot cups of tea" $"MakeTea")
  = map (fun _ => Ok [two_cups_at (8, 11); mkIS $"hot" (12, 15) $"Temperature" $"beverage_temperature"])
      orders_tried.
Proof. vm_compute. reflexivity. Qed.
