(** Specification vocabulary for whole programs of the wrappers, C72, C73, C74: what the program
    would do with engines of the Rust interface in its variables. *)
From Coq Require Import String List NArith ZArith Bool.
From Verif Require Import Base M_Types M_Engine M_Filler S_Filler M_Ffi S_Ffi M_Memory S_Memory M_Wrap M_Python M_Kotlin M_Swift S_Wrap.
Import ListNotations.
Local Open Scope nat_scope.

(** What the calls of an operation find outside of the library, whatever its memory. *)
Record Outside := mkOutside {
  out_dir : str -> outcome Engine;
  out_zip : list byte -> outcome Engine;
  out_ord1 : HashOrder;
  out_ord2 : HashOrder }.
Definition finds (es : meets) (out : Outside) : Prop :=
  allocator es /\
  forall i m, env_dir (es i m) = out_dir out /\ env_zip (es i m) = out_zip out /\
              env_ord1 (es i m) = out_ord1 out /\ env_ord2 (es i m) = out_ord2 out.

(** An operation in terms of the Rust interface.  A question gives [None] when its answer cannot
    be converted. *)
Inductive deed A :=
| Creates (v : nat) (o : outcome Engine)
| Asks (v : nat) (question : Engine -> outcome (option A))
| Drops (v : nat)
| Tells (a : A)
| Fails.
Arguments Creates {A} v o.
Arguments Asks {A} v question.
Arguments Drops {A} v.
Arguments Tells {A} a.
Arguments Fails {A}.
(** The engines that the variables hold. *)
Definition engines := nat -> option Engine.
Definition set (g : engines) (v : nat) (o : option Engine) : engines := fun w => if Nat.eqb w v then o else g w.

(** How an operation ends, and what the variables hold after it. *)
Inductive does {A} (why : error -> option str) (g : engines) : deed A -> engines -> ending (option A) -> Prop :=
| created v en : does why g (Creates v (Ok en)) (set g v (Some en)) (Value None)
| not_created v e : does why g (Creates v (Err e)) g (Raised (why e))
| creation_crashed v : does why g (Creates v Panic) g Crashed
| answered v q en a : g v = Some en -> q en = Ok (Some a) -> does why g (Asks v q) g (Value (Some a))
| not_converted v q en : g v = Some en -> q en = Ok None -> does why g (Asks v q) g (Raised None)
| not_answered v q en e : g v = Some en -> q en = Err e -> does why g (Asks v q) g (Raised (why e))
| question_crashed v q en : g v = Some en -> q en = Panic -> does why g (Asks v q) g Crashed
| nobody_asked v q : g v = None -> does why g (Asks v q) g (Raised None)
| dropped v en : g v = Some en -> does why g (Drops v) (set g v None) (Value None)
| nothing_dropped v : g v = None -> does why g (Drops v) g (Raised None)
| told a : does why g (Tells a) g (Value (Some a))
| failed : does why g Fails g (Raised None).

(** The answers of a whole program; [n] engines have been created.  It ends when the process crashes. *)
Inductive history {O A} (means : nat -> O -> deed A -> Prop) (why : error -> option str) :
    nat -> engines -> list O -> list (ending (option A)) -> Prop :=
| history_end n g : history means why n g [] []
| history_step n g o d g' r l rs :
    means n o d -> does why g d g' r -> r <> Crashed ->
    history means why (match d with Creates _ (Ok _) => S n | _ => n end) g' l rs ->
    history means why n g (o :: l) (r :: rs)
| history_crash n g o d g' l :
    means n o d -> does why g d g' Crashed -> history means why n g (o :: l) [Crashed].
Definition no_engines : engines := fun _ => None.

(** A question whose answer is given as json, or as a structure. *)
Definition as_json {R} (js : output -> outcome str) (out : R -> output) (o : outcome R) : outcome (option str) :=
  let* r := o in let* s := js (out r) in Ok (Some s).
Definition as_c {R V} (cs : output -> outcome output) (view : output -> option V) (out : R -> output) (o : outcome R) : outcome (option V) :=
  let* r := o in let* c := cs (out r) in Ok (view c).

(** ** Python.  A text that is not Unicode is refused. *)
Inductive py_means (x : Ext) (js : output -> outcome str) (path : str -> str) (es : meets) : py_op -> deed str -> Prop :=
| py_new_dir out v d d' b : finds es out -> unicode (path d) -> cut_at_zero (path d) d' ->
    py_means x js path es (PyNew v (Some d) b) (Creates v (out_dir out d'))
| py_new_bytes out v b : finds es out -> py_means x js path es (PyNew v None (Some b)) (Creates v (out_zip out b))
| py_new_nothing v : allocator es -> py_means x js path es (PyNew v None None) Fails
| py_new_bad v d b : allocator es -> ~ unicode (path d) -> py_means x js path es (PyNew v (Some d) b) Fails
| py_means_parse out v q q' wl wl' bl bl' ia sa : finds es out ->
    unicode q -> unicode_list wl -> unicode_list bl -> uint32 ia -> uint32 sa ->
    cut_at_zero q q' -> cut_list wl wl' -> cut_list bl bl' ->
    py_means x js path es (PyParse v q wl bl ia sa)
      (Asks v (fun en => as_json js OutParse
         (parse_with_alternatives x (out_ord1 out) (out_ord2 out) en q' wl' bl' (Z.to_nat ia) (Z.to_nat sa))))
| py_parse_bad v q wl bl ia sa : allocator es -> ~ unicode q -> py_means x js path es (PyParse v q wl bl ia sa) Fails
| py_means_slots v q q' i i' sa : allocator es -> unicode q -> unicode i -> uint32 sa -> cut_at_zero q q' -> cut_at_zero i i' ->
    py_means x js path es (PyGetSlots v q i sa)
      (Asks v (fun en => as_json js OutSlots (get_slots_with_alternatives x en q' i' (Z.to_nat sa))))
| py_slots_bad v q i sa : allocator es -> ~ unicode q -> py_means x js path es (PyGetSlots v q i sa) Fails
| py_means_intents out v q q' : finds es out -> unicode q -> cut_at_zero q q' ->
    py_means x js path es (PyGetIntents v q) (Asks v (fun en => as_json js OutIntents (get_intents (out_ord1 out) en q')))
| py_intents_bad v q : allocator es -> ~ unicode q -> py_means x js path es (PyGetIntents v q) Fails
| py_means_del v : allocator es -> py_means x js path es (PyDel v) (Drops v).

(** ** Kotlin.  The engine that is created after [n] others has the number [n]. *)
Definition structure {V} (o : outcome (option V)) : outcome (option (@kt_value V)) :=
  let* v := o in Ok (option_map KtStructure v).
Definition written {V} (o : outcome (option str)) : outcome (option (@kt_value V)) :=
  let* s := o in Ok (option_map KtText s).
Definition kt_given {R V} js cs (view : output -> option V) (out : R -> output) (json : bool) (o : outcome R) : outcome (option (@kt_value V)) :=
  if json then written (as_json js out o) else structure (as_c cs view out o).
Inductive kt_means (x : Ext) js cs (path : str -> str) {V} (view : output -> option V) (n : nat) (es : meets) : kt_op -> deed (@kt_value V) -> Prop :=
| kt_means_version : allocator es -> kt_means x js cs path view n es KtVersion (Tells (KtText ($ "0.20.0"%string)))
| kt_means_file out f f' : finds es out -> unicode (path f) -> cut_at_zero (path f) f' ->
    kt_means x js cs path view n es (KtNewFile f) (Creates n (out_dir out f'))
| kt_means_zip out d : finds es out -> kt_means x js cs path view n es (KtNewZip d) (Creates n (out_zip out d))
| kt_means_parse out v q q' wl wl' bl bl' ia ia' sa sa' json : finds es out ->
    unicode q -> unicode_list wl -> unicode_list bl -> wl <> Some [] -> bl <> Some [] ->
    int_count ia ia' -> int_count sa sa' -> cut_at_zero q q' -> cut_list wl wl' -> cut_list bl bl' ->
    kt_means x js cs path view n es (KtParse v q wl bl ia sa json)
      (Asks v (fun en => kt_given js cs view OutParse json
         (parse_with_alternatives x (out_ord1 out) (out_ord2 out) en q' wl' bl' ia' sa')))
| kt_means_slots v q q' i i' sa sa' json : allocator es ->
    unicode q -> unicode i -> int_count sa sa' -> cut_at_zero q q' -> cut_at_zero i i' ->
    kt_means x js cs path view n es (KtGetSlots v q i sa json)
      (Asks v (fun en => kt_given js cs view OutSlots json (get_slots_with_alternatives x en q' i' sa')))
| kt_means_intents out v q q' json : finds es out -> unicode q -> cut_at_zero q q' ->
    kt_means x js cs path view n es (KtGetIntents v q json)
      (Asks v (fun en => kt_given js cs view OutIntents json (get_intents (out_ord1 out) en q')))
| kt_means_close v : allocator es -> kt_means x js cs path view n es (KtClose v) (Drops v).
(** [KtNothing] is the value of an operation that gives nothing. *)
Definition kt_ending {V} (r : ending (@kt_value V)) : ending (option (@kt_value V)) :=
  match r with
  | Value KtNothing => Value None
  | Value v => Value (Some v)
  | Raised w => Raised w
  | Crashed => Crashed
  | Broken => Broken
  end.

(** ** Swift *)
Inductive sw_means (x : Ext) cs {V} (view : output -> option V) (es : meets) : sw_op -> deed V -> Prop :=
| sw_means_url out v p p' : finds es out -> unicode p -> cut_at_zero p p' -> sw_means x cs view es (SwNewURL v p) (Creates v (out_dir out p'))
| sw_means_data out v d : finds es out -> d <> [] -> uint32 (Z.of_nat (List.length d)) ->
    sw_means x cs view es (SwNewData v d) (Creates v (out_zip out d))
| sw_means_parse out v q q' wl wl' bl bl' ia sa : finds es out ->
    unicode q -> unicode_list wl -> unicode_list bl -> uint32 ia -> uint32 sa ->
    cut_at_zero q q' -> cut_list wl wl' -> cut_list bl bl' ->
    sw_means x cs view es (SwParse v q wl bl ia sa)
      (Asks v (fun en => as_c cs view OutParse
         (parse_with_alternatives x (out_ord1 out) (out_ord2 out) en q' wl' bl' (Z.to_nat ia) (Z.to_nat sa))))
| sw_means_slots v q q' i i' sa : allocator es -> unicode q -> unicode i -> uint32 sa -> cut_at_zero q q' -> cut_at_zero i i' ->
    sw_means x cs view es (SwGetSlots v q i sa)
      (Asks v (fun en => as_c cs view OutSlots (get_slots_with_alternatives x en q' i' (Z.to_nat sa))))
| sw_means_intents out v q q' : finds es out -> unicode q -> cut_at_zero q q' ->
    sw_means x cs view es (SwGetIntents v q) (Asks v (fun en => as_c cs view OutIntents (get_intents (out_ord1 out) en q')))
| sw_means_release v : allocator es -> sw_means x cs view es (SwRelease v) (Drops v).
