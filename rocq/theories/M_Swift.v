(** Model of the Swift wrapper: platforms/swift/SnipsNlu/SnipsNlu/NluEngine.swift. *)
From Coq Require Import String List NArith ZArith Bool Arith.
From Verif Require Import Base F32 M_Types M_Engine M_Filler M_Load M_Ffi M_Memory M_Wrap.
Import ListNotations.
Local Open Scope nat_scope.

(** A Swift string passed as [const char *].  NluEngine.swift:389-490 passes strings. *)
Definition sw_string (s : str) : cstr := c_string (utf8_encode s).
(** NluEngine.swift:363-372 ([strdup] of each string).  The array is freed in [destroy]
    (374-380); pointers that escape from [withUnsafePointer] (438, 443) are taken to be valid. *)
Definition sw_list (l : option (list str)) : cstrs :=
  match l with
  | None => LNull
  | Some l => LData (map sw_string l)
  end.
(** [UInt32(z)] traps when the number does not fit.  NluEngine.swift:402, 446 and 467. *)
Definition sw_uint32 (z : Z) : prog nat :=
  if ((0 <=? z) && (z <? 4294967296))%Z then ret (Z.to_nat z) else fun m => (m, Crashed).

(** The public functions of NluEngine.swift:389-490. *)
Inductive sw_op :=
| SwNewURL (v : nat) (path : str)
| SwNewData (v : nat) (data : list byte)
| SwParse (v : nat) (string : str) (whitelist blacklist : option (list str)) (ia sa : Z)
| SwGetSlots (v : nat) (string intent : str) (sa : Z)
| SwGetIntents (v : nat) (string : str)
| SwRelease (v : nat).

Section Swift.
  Context (x : Ext) (to_json : output -> outcome str) (to_c : output -> outcome output) (message : option error -> str).
  Notation ffi := (ffi x to_json to_c message).
  Notation ffi_ := (ffi_ x to_json to_c message).
  (** The initialisers from C structures, NluEngine.swift:28-349; [None]: an exception. *)
  Context {V : Type} (view : output -> option V).

  (** NluEngine.swift:15-19, thrown: [buffer.pointee!] traps when it is null. *)
  Definition throw_last {A} (e : Memory -> Env) : prog A :=
    let% (_, p) := ffi e GetLastError in
    match p with
    | None => fun m => (m, Crashed)
    | Some _ => let% s := read_text p in raise (Some s)
    end.

  (** The common part of NluEngine.swift:424-490. *)
  Definition sw_ask (es : meets) (k : kind) (c : call) : prog V :=
    let% (code, p) := ffi (es 0) (Call c) in
    finally
      (if code then
         match p with
         | None => raise None
         | Some _ => let% o := read k p in match view o with Some v => ret v | None => raise None end
         end
       else throw_last (es 1))
      (ffi_ (es 2) (Destroy k p)).

  (** NluEngine.swift:389-393 and 400-406: [deinit] is not run when an initialiser throws. *)
  Definition sw_create (es : meets) (c : call) : prog cptr :=
    let% (code, p) := ffi (es 0) (Call c) in
    if code then ret p else throw_last (es 1).
  (** NluEngine.swift:389-393 *)
  Definition sw_new_url (es : meets) (path : str) : prog cptr := sw_create es (CreateFromDir (sw_string path)).
  (** The base address of an empty buffer is nil.  NluEngine.swift:400-406 *)
  Definition sw_new_data (es : meets) (data : list byte) : prog cptr :=
    let% _ := sw_uint32 (Z.of_nat (List.length data)) in
    sw_create es (CreateFromZip (match data with [] => None | _ => Some data end)).
  (** NluEngine.swift:408-413 *)
  Definition sw_deinit (e : Memory -> Env) (client : cptr) : prog unit :=
    match client with
    | None => ret tt
    | Some _ => ffi_ e (Call (DestroyClient client))
    end.

  (** NluEngine.swift:424-452 *)
  Definition sw_parse (es : meets) (client : cptr) (string : str) (whitelist blacklist : option (list str)) (ia sa : Z) : prog V :=
    let% ia := sw_uint32 ia in
    let% sa := sw_uint32 sa in
    sw_ask es KResult (RunParseWithAlternatives client (sw_string string) (sw_list whitelist) (sw_list blacklist) ia sa false).
  (** NluEngine.swift:461-473 *)
  Definition sw_get_slots (es : meets) (client : cptr) (string intent : str) (sa : Z) : prog V :=
    let% sa := sw_uint32 sa in
    sw_ask es KSlots (RunGetSlotsWithAlternatives client (sw_string string) (sw_string intent) sa false).
  (** NluEngine.swift:478-490 *)
  Definition sw_get_intents (es : meets) (client : cptr) (string : str) : prog V :=
    sw_ask es KIntents (RunGetIntents client (sw_string string) false).

  (** A Swift program: variables that hold engines.  An engine is released when its variable
      is bound to another one or goes away (reference counting).  The callers: no
      counterpart in the code. *)
  Record Sw := mkSw { sw_memory : Memory; sw_variables : list (nat * cptr) }.
  (** A call made by a program: no counterpart in the code. *)
  Definition sw_new (st : Sw) (es : meets) (v : nat) (new : prog cptr) : Sw * ending (option V) :=
    match (let% p := new in
           let% _ := match hget Nat.eqb v (sw_variables st) with Some old => sw_deinit (es 3) old | None => ret tt end in
           ret p) (sw_memory st) with
    | (m, Value p) => (mkSw m (hinsert Nat.eqb v p (sw_variables st)), Value None)
    | (m, Raised w) => (mkSw m (sw_variables st), Raised w)
    | (m, Crashed) => (mkSw m (sw_variables st), Crashed)
    | (m, Broken) => (mkSw m (sw_variables st), Broken)
    end.
  (** A call made by a program: no counterpart in the code. *)
  Definition sw_about (st : Sw) (v : nat) (ask : cptr -> prog V) : Sw * ending (option V) :=
    match hget Nat.eqb v (sw_variables st) with
    | None => (st, Raised None)
    | Some p => let (m, r) := (let% a := ask p in ret (Some a)) (sw_memory st) in (mkSw m (sw_variables st), r)
    end.
  (** A call made by a program: no counterpart in the code. *)
  Definition sw_step (st : Sw) (es : meets) (o : sw_op) : Sw * ending (option V) :=
    match o with
    | SwNewURL v path => sw_new st es v (sw_new_url es path)
    | SwNewData v data => sw_new st es v (sw_new_data es data)
    | SwParse v s wl bl ia sa => sw_about st v (fun c => sw_parse es c s wl bl ia sa)
    | SwGetSlots v s i sa => sw_about st v (fun c => sw_get_slots es c s i sa)
    | SwGetIntents v s => sw_about st v (fun c => sw_get_intents es c s)
    | SwRelease v =>
        match hget Nat.eqb v (sw_variables st) with
        | None => (st, Raised None)
        | Some p => let (m, r) := (let% _ := sw_deinit (es 0) p in ret None) (sw_memory st) in
                    (mkSw m (filter (fun vp => negb (Nat.eqb (fst vp) v)) (sw_variables st)), r)
        end
    end.
  (** A program ends when the process crashes.  The callers: no counterpart in the code. *)
  Fixpoint sw_run (st : Sw) (l : list (meets * sw_op)) : Sw * list (ending (option V)) :=
    match l with
    | [] => (st, [])
    | (es, o) :: t =>
        let (st1, r) := sw_step st es o in
        match r with
        | Crashed | Broken => (st1, [r])
        | _ => let (st2, s) := sw_run st1 t in (st2, r :: s)
        end
    end.
End Swift.
