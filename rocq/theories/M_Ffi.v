(** Model of the C interface: ffi/src/lib.rs. *)
From Coq Require Import String List NArith ZArith Bool Arith.
From Verif Require Import Base F32 M_Types M_Engine M_Filler M_Load.
Import ListNotations.
Local Open Scope nat_scope.

(** A [char *]: null, or the bytes before the terminating zero.  The arguments of type
    [*const libc::c_char] of lib.rs:31-204. *)
Inductive cstr := CNull | CBytes (b : list byte).
(** A [CStringArray *]: null, an array whose [data] is null, or the elements.
    [CStringArray] of ffi_utils; lib.rs:282-291. *)
Inductive cstrs := LNull | LNoData | LData (l : list cstr).
(** A [CSnipsNluEngine *]: null, or an address.  The arguments [client] of lib.rs:31-215. *)
Definition cptr := option nat.

(** What is written to the output pointer.  The arguments [result] of lib.rs:31-240. *)
Inductive output :=
| OutClient (address : nat)
| OutParse (r : ParseResult)
| OutSlots (l : list Slot)
| OutIntents (l : list IntentResult)
| OutText (s : str)
| OutNothing.

(** How a call ends.  [Undefined]: what happens depends on memory that the caller has not
    made valid.  [SNIPS_RESULT] of lib.rs:31-240. *)
Inductive reply := ROk (o : output) | RKo | RPanic | RUndefined.

(** An engine behind its mutex, lib.rs:18. *)
Record Client := mkClient { cl_engine : Engine; cl_poisoned : bool }.
(** The clients that are allocated, and the last error (of ffi_utils, per thread).  The
    clients of lib.rs:18, and the last error kept by ffi_utils (lib.rs:29). *)
Record World := mkWorld { w_clients : list (nat * Client); w_error : option error }.

(** What a call meets outside of the library: engines on disk and in archives, the
    allocator, and the iteration orders of the hash maps it creates.  lib.rs:248, 263,
    250 and 264. *)
Record Env := mkEnv {
  env_dir : str -> outcome Engine;
  env_zip : list byte -> outcome Engine;
  env_address : nat;
  env_ord1 : HashOrder;
  env_ord2 : HashOrder }.

(** The functions of the interface.  [snips_nlu_engine_destroy_string] and the other
    functions that free results are in M_Memory.  lib.rs:31-215 and 235-240. *)
Inductive call :=
| CreateFromDir (root : cstr)
| CreateFromZip (zip : option (list byte))
| RunParse (client : cptr) (input : cstr) (whitelist blacklist : cstrs) (json : bool)
| RunParseWithAlternatives (client : cptr) (input : cstr) (whitelist blacklist : cstrs)
    (intents_alternatives slots_alternatives : nat) (json : bool)
| RunGetSlots (client : cptr) (input intent : cstr) (json : bool)
| RunGetSlotsWithAlternatives (client : cptr) (input intent : cstr) (slots_alternatives : nat) (json : bool)
| RunGetIntents (client : cptr) (input : cstr) (json : bool)
| DestroyClient (client : cptr)
| GetModelVersion.

(** A Rust computation inside a call: it may also be undefined.  Helper, no counterpart
    in the code. *)
Definition act A := option (outcome A).
(** The operator [?] of lib.rs:242-415. *)
Definition abind {A B} (m : act A) (k : A -> act B) : act B :=
  match m with
  | Some (Ok a) => k a
  | Some (Err e) => Some (Err e)
  | Some Panic => Some Panic
  | None => None
  end.
Notation "'let!' x := m 'in' k" := (abind m (fun x => k)) (at level 200, x pattern, m at level 100, k at level 200).

Section Ffi.
  Context (x : Ext).
  (** [serde_json::to_string] of the results (external), and the conversion of the results
      to C structures (crate snips_nlu_ontology_ffi_macros, external), which panics on
      texts that contain a zero. *)
  Context (to_json : output -> outcome str) (to_c : output -> outcome output).

  (** [create_rust_string_from!] of ffi_utils *)
  Definition rust_string (s : cstr) : act str :=
    match s with
    | CNull => Some (Err EOther)
    | CBytes b => Some (ok_or EOther (utf8_decode b))
    end.

  (** lib.rs:409-415: [CStr::from_ptr] of a null pointer is undefined. *)
  Definition element (s : cstr) : act str :=
    match s with
    | CNull => None
    | CBytes b => Some (ok_or EOther (utf8_decode b))
    end.
  (** lib.rs:411-414 *)
  Fixpoint elements (l : list cstr) : act (list str) :=
    match l with
    | [] => Some (Ok [])
    | s :: r => let! a := element s in let! m := elements r in Some (Ok (a :: m))
    end.
  (** lib.rs:282-291 and 409-415: [slice::from_raw_parts] of a null pointer is undefined,
      even when the size is zero. *)
  Definition rust_strings (l : cstrs) : act (option (list str)) :=
    match l with
    | LNull => Some (Ok None)
    | LNoData => None
    | LData l => let! v := elements l in Some (Ok (Some v))
    end.
  (** lib.rs:256-268: [slice::from_raw_parts] of the archive. *)
  Definition rust_bytes (zip : option (list byte)) : act (list byte) :=
    match zip with None => None | Some b => Some (Ok b) end.

  (** lib.rs:20-27.  A pointer to no client is undefined. *)
  Definition get_client (w : World) (p : cptr) : act (nat * Engine) :=
    match p with
    | None => Some (Err EOther)
    | Some a => match hget Nat.eqb a (w_clients w) with
                | None => None
                | Some c => Some (if cl_poisoned c then Err EOther else Ok (a, cl_engine c))
                end
    end.

  (** [point_to_string] of ffi_utils: [CString::new] refuses zeros.  lib.rs:373, 389, 402
      and 406. *)
  Definition point_to_string (s : str) : outcome output :=
    if existsb (N.eqb 0) s then Err EOther else Ok (OutText s).

  (** How a result is given: as a C structure or as json.  lib.rs:300, 320, 336 and 373,
      389, 402. *)
  Definition give (json : bool) (o : output) : outcome output :=
    if json then let* s := to_json o in point_to_string s else to_c o.

  (** [wrap!] of ffi_utils.  lib.rs:31-240 *)
  Definition wrap (w : World) (r : act output) : World * reply :=
    match r with
    | Some (Ok o) => (w, ROk o)
    | Some (Err e) => (mkWorld (w_clients w) (Some e), RKo)
    | Some Panic => (w, RPanic)
    | None => (w, RUndefined)
    end.

  (** A panic while the engine is locked poisons the mutex.  [std::sync::Mutex] (lib.rs:18). *)
  Definition poison (w : World) (a : nat) : World :=
    mkWorld (map (fun ac => if Nat.eqb (fst ac) a then (fst ac, mkClient (cl_engine (snd ac)) true) else ac) (w_clients w))
            (w_error w).
  (** lib.rs:20-27, then the rest of lib.rs:270-403. *)
  Definition locked (w : World) (ae : act (nat * Engine)) (k : Engine -> act output) : World * reply :=
    match ae with
    | Some (Ok (a, en)) =>
        match k en with
        | Some Panic => (poison w a, RPanic)
        | r => wrap w r
        end
    | Some (Err e) => wrap w (Some (Err e))
    | Some Panic => wrap w (Some Panic)
    | None => wrap w None
    end.
  (** What comes before the engine is locked.  lib.rs:279, 314-315, 332. *)
  Definition first {A} (w : World) (m : act A) (k : A -> World * reply) : World * reply :=
    match m with
    | Some (Ok a) => k a
    | Some (Err e) => wrap w (Some (Err e))
    | Some Panic => wrap w (Some Panic)
    | None => wrap w None
    end.

  (** lib.rs:242-268 *)
  Definition new_client (w : World) (env : Env) (m : act Engine) : World * reply :=
    first w m (fun en =>
      (mkWorld ((env_address env, mkClient en false) :: w_clients w) (w_error w), ROk (OutClient (env_address env)))).

  (** lib.rs:270-305 and 343-374 *)
  Definition run_parse (w : World) (env : Env) (client : cptr) (input : cstr) (wl bl : cstrs) (ia sa : nat) (json : bool)
      : World * reply :=
    first w (rust_string input) (fun s =>
      locked w (get_client w client) (fun en =>
        let! whitelist := rust_strings wl in
        let! blacklist := rust_strings bl in
        let! r := Some (parse_with_alternatives x (env_ord1 env) (env_ord2 env) en s whitelist blacklist ia sa) in
        Some (give json (OutParse r)))).

  (** lib.rs:307-325 and 376-390 *)
  Definition run_get_slots (w : World) (client : cptr) (input intent : cstr) (sa : nat) (json : bool) : World * reply :=
    first w (rust_string input) (fun s =>
      first w (rust_string intent) (fun i =>
        locked w (get_client w client) (fun en =>
          let! r := Some (get_slots_with_alternatives x en s i sa) in
          Some (give json (OutSlots r))))).

  (** lib.rs:327-341 and 392-403 *)
  Definition run_get_intents (w : World) (env : Env) (client : cptr) (input : cstr) (json : bool) : World * reply :=
    first w (rust_string input) (fun s =>
      locked w (get_client w client) (fun en =>
        let! r := Some (get_intents (env_ord1 env) en s) in
        Some (give json (OutIntents r)))).

  (** lib.rs:211-214: a null pointer is refused; freeing twice is undefined. *)
  Definition destroy_client (w : World) (client : cptr) : World * reply :=
    match client with
    | None => wrap w (Some (Err EOther))
    | Some a => match hget Nat.eqb a (w_clients w) with
                | None => wrap w None
                | Some _ => (mkWorld (filter (fun ac => negb (Nat.eqb (fst ac) a)) (w_clients w)) (w_error w), ROk OutNothing)
                end
    end.

  (** lib.rs:31-204, 235-240 *)
  Definition step (w : World) (env : Env) (c : call) : World * reply :=
    match c with
    | CreateFromDir root => new_client w env (let! s := rust_string root in Some (env_dir env s))
    | CreateFromZip zip => new_client w env (let! b := rust_bytes zip in Some (env_zip env b))
    | RunParse client input wl bl json => run_parse w env client input wl bl 0 0 json
    | RunParseWithAlternatives client input wl bl ia sa json => run_parse w env client input wl bl ia sa json
    | RunGetSlots client input intent json => run_get_slots w client input intent 0 json
    | RunGetSlotsWithAlternatives client input intent sa json => run_get_slots w client input intent sa json
    | RunGetIntents client input json => run_get_intents w env client input json
    | DestroyClient client => destroy_client w client
    | GetModelVersion => wrap w (Some (point_to_string MODEL_VERSION))
    end.

  (** A sequence of calls, and their replies.  The callers of the library: no counterpart
      in the code. *)
  Fixpoint run (w : World) (l : list (Env * call)) : World * list reply :=
    match l with
    | [] => (w, [])
    | (env, c) :: r => let (w1, a) := step w env c in let (w2, rs) := run w1 r in (w2, a :: rs)
    end.
End Ffi.
