(** Model of the Kotlin wrapper: platforms/kotlin/src/main/kotlin/ai/snips/nlu/NluEngine.kt. *)
From Coq Require Import String List NArith ZArith Bool Arith.
From Verif Require Import Base F32 M_Types M_Engine M_Filler M_Load M_Ffi M_Memory M_Wrap.
Import ListNotations.
Local Open Scope nat_scope.

(** The text of a C string ([readString], external). *)
Definition text_of (o : output) : option str := match o with OutText s => Some s | _ => None end.
(** [String.toPointer()] (external): the UTF-8 bytes, with ["?"] for each unpaired surrogate. *)
Definition kt_string (s : str) : cstr := c_string (utf8_encode (map (fun c => if is_scalar c then c else 63%N) s)).
(** NluEngine.kt:25-34: the array of an empty list is a null pointer. *)
Definition kt_list (l : option (list str)) : cstrs :=
  match l with
  | None => LNull
  | Some [] => LNoData
  | Some l => LData (map kt_string l)
  end.
(** A Kotlin [Int], read as an unsigned integer.  The arguments of type [Int] of
    NluEngine.kt:96-170. *)
Definition kt_int (z : Z) : nat := Z.to_nat (z mod 4294967296).

(** What a program does with the wrapper.  Engines are numbered in the order of their creation.
    [json] chooses the functions whose names end with [IntoJson].  The public functions
    of NluEngine.kt:70-197. *)
Inductive kt_op :=
| KtVersion
| KtNewFile (file : str)
| KtNewZip (data : list byte)
| KtParse (n : nat) (input : str) (whitelist blacklist : option (list str)) (ia sa : Z) (json : bool)
| KtGetSlots (n : nat) (input intent : str) (sa : Z) (json : bool)
| KtGetIntents (n : nat) (input : str) (json : bool)
| KtClose (n : nat).

Section Kotlin.
  Context (x : Ext) (to_json : output -> outcome str) (to_c : output -> outcome output) (message : option error -> str).
  Notation ffi := (ffi x to_json to_c message).
  Notation ffi_ := (ffi_ x to_json to_c message).
  (** [File.absolutePath] (external). *)
  Context (absolute_path : str -> str).
  (** [toIntentParserResult], [toSlotList] and [toIntentClassifierResultList] of the ontology
      library (external); [None]: an exception. *)
  Context {V : Type} (view : output -> option V).

  (** NluEngine.kt:58-67.  [value.getString] throws when [value] is null. *)
  Definition parse_error (e1 e2 : Memory -> Env) (code : bool) : prog unit :=
    if code then ret tt else
    let% (_, p) := ffi e1 GetLastError in
    match p with
    | None => raise None
    | Some _ =>
        let% s := read_text p in
        let% _ := ffi_ e2 (Destroy KString p) in
        raise (Some s)
    end.

  (** The common part of NluEngine.kt:70-73 and 96-197: the call, [parseError], the conversion
      of the result, and its destruction. *)
  Definition kt_ask {A} (es : meets) (k : kind) (convert : output -> option A) (c : call) : prog A :=
    let% (code, p) := ffi (es 0) (Call c) in
    let% _ := parse_error (es 1) (es 2) code in
    let% o := read k p in
    match convert o with
    | None => raise None
    | Some v => let% _ := ffi_ (es 3) (Destroy k p) in ret v
    end.

  (** NluEngine.kt:70-73 *)
  Definition kt_model_version (es : meets) : prog str := kt_ask es KString text_of GetModelVersion.
  (** NluEngine.kt:76-90 *)
  Definition kt_create (es : meets) (c : call) : prog cptr :=
    let% (code, p) := ffi (es 0) (Call c) in
    let% _ := parse_error (es 1) (es 2) code in
    ret p.
  (** NluEngine.kt:76-81 *)
  Definition kt_new_file (es : meets) (file : str) : prog cptr := kt_create es (CreateFromDir (kt_string (absolute_path file))).
  (** NluEngine.kt:83-88 *)
  Definition kt_new_zip (es : meets) (data : list byte) : prog cptr := kt_create es (CreateFromZip (Some data)).
  (** NluEngine.kt:92-94 *)
  Definition kt_close (es : meets) (client : cptr) : prog unit := ffi_ (es 0) (Call (DestroyClient client)).

  (** NluEngine.kt:96-118 and 120-139 *)
  Definition kt_parse (es : meets) (client : cptr) (input : str) (whitelist blacklist : option (list str)) (ia sa : Z) : prog V :=
    kt_ask es KResult view (RunParseWithAlternatives client (kt_string input) (kt_list whitelist) (kt_list blacklist) (kt_int ia) (kt_int sa) false).
  (** NluEngine.kt:120-139 *)
  Definition kt_parse_json (es : meets) (client : cptr) (input : str) (whitelist blacklist : option (list str)) (ia sa : Z) : prog str :=
    kt_ask es KString text_of (RunParseWithAlternatives client (kt_string input) (kt_list whitelist) (kt_list blacklist) (kt_int ia) (kt_int sa) true).
  (** NluEngine.kt:141-157 and 159-172 *)
  Definition kt_get_slots (es : meets) (client : cptr) (input intent : str) (sa : Z) : prog V :=
    kt_ask es KSlots view (RunGetSlotsWithAlternatives client (kt_string input) (kt_string intent) (kt_int sa) false).
  (** NluEngine.kt:159-172 *)
  Definition kt_get_slots_json (es : meets) (client : cptr) (input intent : str) (sa : Z) : prog str :=
    kt_ask es KString text_of (RunGetSlotsWithAlternatives client (kt_string input) (kt_string intent) (kt_int sa) true).
  (** NluEngine.kt:174-184 and 186-197 *)
  Definition kt_get_intents (es : meets) (client : cptr) (input : str) : prog V :=
    kt_ask es KIntents view (RunGetIntents client (kt_string input) false).
  (** NluEngine.kt:186-196 *)
  Definition kt_get_intents_json (es : meets) (client : cptr) (input : str) : prog str :=
    kt_ask es KString text_of (RunGetIntents client (kt_string input) true).

  (** The engines of a program: their numbers and their clients.  The callers: no
      counterpart in the code. *)
  Record Kt := mkKt { kt_memory : Memory; kt_engines : list (nat * cptr) }.
  (** The value of an operation: text, a structure or nothing.  The results of
      NluEngine.kt:70-197. *)
  Inductive kt_value := KtNothing | KtText (s : str) | KtStructure (v : V).

  (** A call made by a program: no counterpart in the code. *)
  Definition kt_plain (st : Kt) (p : prog kt_value) : Kt * ending kt_value :=
    let (m, r) := p (kt_memory st) in (mkKt m (kt_engines st), r).
  (** A number without an engine cannot be written in a program: an exception here.  A call
      made by a program: no counterpart in the code. *)
  Definition kt_about (st : Kt) (n : nat) (p : cptr -> prog kt_value) : Kt * ending kt_value :=
    match hget Nat.eqb n (kt_engines st) with
    | None => (st, Raised None)
    | Some c => kt_plain st (p c)
    end.
  (** A call made by a program: no counterpart in the code. *)
  Definition kt_new (st : Kt) (p : prog cptr) : Kt * ending kt_value :=
    match p (kt_memory st) with
    | (m, Value c) => (mkKt m ((List.length (kt_engines st), c) :: kt_engines st), Value KtNothing)
    | (m, Raised w) => (mkKt m (kt_engines st), Raised w)
    | (m, Crashed) => (mkKt m (kt_engines st), Crashed)
    | (m, Broken) => (mkKt m (kt_engines st), Broken)
    end.
  (** A call made by a program: no counterpart in the code. *)
  Definition as_text (p : prog str) : prog kt_value := let% s := p in ret (KtText s).
  (** A call made by a program: no counterpart in the code. *)
  Definition as_structure (p : prog V) : prog kt_value := let% v := p in ret (KtStructure v).
  (** A call made by a program: no counterpart in the code. *)
  Definition kt_step (st : Kt) (es : meets) (o : kt_op) : Kt * ending kt_value :=
    match o with
    | KtVersion => kt_plain st (as_text (kt_model_version es))
    | KtNewFile f => kt_new st (kt_new_file es f)
    | KtNewZip d => kt_new st (kt_new_zip es d)
    | KtParse n i wl bl ia sa json =>
        kt_about st n (fun c => if json then as_text (kt_parse_json es c i wl bl ia sa) else as_structure (kt_parse es c i wl bl ia sa))
    | KtGetSlots n i intent sa json =>
        kt_about st n (fun c => if json then as_text (kt_get_slots_json es c i intent sa) else as_structure (kt_get_slots es c i intent sa))
    | KtGetIntents n i json =>
        kt_about st n (fun c => if json then as_text (kt_get_intents_json es c i) else as_structure (kt_get_intents es c i))
    | KtClose n => kt_about st n (fun c => let% _ := kt_close es c in ret KtNothing)
    end.
  (** A program ends when the process crashes.  The callers: no counterpart in the code. *)
  Fixpoint kt_run (st : Kt) (l : list (meets * kt_op)) : Kt * list (ending kt_value) :=
    match l with
    | [] => (st, [])
    | (es, o) :: t =>
        let (st1, r) := kt_step st es o in
        match r with
        | Crashed | Broken => (st1, [r])
        | _ => let (st2, s) := kt_run st1 t in (st2, r :: s)
        end
    end.
End Kotlin.
Arguments KtNothing {V}.
Arguments KtText {V} s.
Arguments KtStructure {V} v.
