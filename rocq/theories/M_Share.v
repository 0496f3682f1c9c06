(** Model of a host with several threads that share the clients of the C interface:
    ffi/src/lib.rs:18-27 (the mutex around an engine) and ffi_utils (the last error of a
    thread).  The functions themselves are those of M_Ffi, cut where another thread may run. *)
From Coq Require Import String List NArith ZArith Bool Arith.
From Verif Require Import Base F32 M_Types M_Engine M_Filler M_Load M_Ffi.
Import ListNotations.
Local Open Scope nat_scope.

(** What a call does with the state that the threads share. *)
Inductive plan :=
| Fixed (r : act output)                               (* nothing *)
| Making (m : act Engine)                              (* it loads an engine, then allocates a client *)
| Locking (p : cptr) (k : Engine -> act output)        (* it works on an engine that it locks *)
| Freeing (p : cptr).                                  (* it frees a client *)

(** Where a thread is in its current call: outside of it, with an engine loaded, with an
    engine locked, with an engine locked and the work done.  Positions in lib.rs:242-403. *)
Inductive place :=
| Outside
| Made (m : act Engine)
| Inside (a : nat) (k : Engine -> act output)
| Leaving (a : nat) (r : act output).

(** A thread: the calls it has to make, the current one first, and its last error.  The
    callers of the library: no counterpart in the code. *)
Record Caller := mkCaller { ca_place : place; ca_todo : list (Env * call); ca_error : option error }.
(** The clients, who holds which mutex, the threads, and the calls that have returned, in
    the order in which they did.  The process: no counterpart in the code. *)
Record Host := mkHost {
  ho_clients : list (nat * Client);
  ho_locks : list (nat * nat);
  ho_callers : list Caller;
  ho_log : list (nat * (Env * call) * reply) }.

(** The address that the allocator gives when a client is made.  lib.rs:250 and 264. *)
Definition with_address (env : Env) (a : nat) : Env := mkEnv (env_dir env) (env_zip env) a (env_ord1 env) (env_ord2 env).

(** Helper, no counterpart in the code. *)
Definition set_nth {A} (l : list A) (i : nat) (a : A) : list A := firstn i l ++ a :: skipn (S i) l.
(** [Drop] of the guard of lib.rs:20-27. *)
Definition unlock (l : list (nat * nat)) (a : nat) : list (nat * nat) := filter (fun p => negb (Nat.eqb (fst p) a)) l.

Section Share.
  Context (x : Ext) (to_json : output -> outcome str) (to_c : output -> outcome output).

  (** The arguments are converted before the engine is locked; the lists after.
      lib.rs:279-291, 314-316, 332-333. *)
  Definition before {A} (m : act A) (k : A -> plan) : plan :=
    match m with
    | Some (Ok a) => k a
    | Some (Err e) => Fixed (Some (Err e))
    | Some Panic => Fixed (Some Panic)
    | None => Fixed None
    end.
  (** lib.rs:270-305 and 343-374 *)
  Definition plan_parse (env : Env) (client : cptr) (input : cstr) (wl bl : cstrs) (ia sa : nat) (json : bool) : plan :=
    before (rust_string input) (fun s =>
      Locking client (fun en =>
        let! whitelist := rust_strings wl in
        let! blacklist := rust_strings bl in
        let! r := Some (parse_with_alternatives x (env_ord1 env) (env_ord2 env) en s whitelist blacklist ia sa) in
        Some (give to_json to_c json (OutParse r)))).
  (** lib.rs:307-325 and 376-390 *)
  Definition plan_slots (client : cptr) (input intent : cstr) (sa : nat) (json : bool) : plan :=
    before (rust_string input) (fun s =>
      before (rust_string intent) (fun i =>
        Locking client (fun en =>
          let! r := Some (get_slots_with_alternatives x en s i sa) in
          Some (give to_json to_c json (OutSlots r))))).
  (** lib.rs:327-341 and 392-403 *)
  Definition plan_intents (env : Env) (client : cptr) (input : cstr) (json : bool) : plan :=
    before (rust_string input) (fun s =>
      Locking client (fun en =>
        let! r := Some (get_intents (env_ord1 env) en s) in
        Some (give to_json to_c json (OutIntents r)))).
  (** lib.rs:31-268 *)
  Definition plan_of (env : Env) (c : call) : plan :=
    match c with
    | CreateFromDir root => Making (let! s := rust_string root in Some (env_dir env s))
    | CreateFromZip zip => Making (let! b := rust_bytes zip in Some (env_zip env b))
    | RunParse client input wl bl json => plan_parse env client input wl bl 0 0 json
    | RunParseWithAlternatives client input wl bl ia sa json => plan_parse env client input wl bl ia sa json
    | RunGetSlots client input intent json => plan_slots client input intent 0 json
    | RunGetSlotsWithAlternatives client input intent sa json => plan_slots client input intent sa json
    | RunGetIntents client input json => plan_intents env client input json
    | DestroyClient client => Freeing client
    | GetModelVersion => Fixed (Some (point_to_string MODEL_VERSION))
    end.

  (** Helper, no counterpart in the code. *)
  Definition world_of (h : Host) (t : Caller) : World := mkWorld (ho_clients h) (ca_error t).
  (** Helper, no counterpart in the code. *)
  Definition is_held (h : Host) (a : nat) : bool := match hget Nat.eqb a (ho_locks h) with Some _ => true | None => false end.

  (** The thread goes on inside its call.  The callers of the library: no counterpart in
      the code. *)
  Definition goes_on (h : Host) (i : nat) (t : Caller) (locks : list (nat * nat)) (p : place) : Host :=
    mkHost (ho_clients h) locks (set_nth (ho_callers h) i (mkCaller p (ca_todo t) (ca_error t))) (ho_log h).
  (** The call returns.  The callers of the library: no counterpart in the code. *)
  Definition returns (h : Host) (i : nat) (e : Env * call) (rest : list (Env * call)) (locks : list (nat * nat)) (wr : World * reply) : Host :=
    mkHost (w_clients (fst wr)) locks (set_nth (ho_callers h) i (mkCaller Outside rest (w_error (fst wr))))
           (ho_log h ++ [(i, e, snd wr)]).

  (** One step of thread [i], when the allocator would give the address [new]; [None] when
      the thread has nothing to do or waits for a mutex, and when the address is in use.
      [lock()] of a poisoned mutex fails at once (lib.rs:24-25).  Freeing a client whose
      mutex is held is undefined. *)
  Definition hstep (h : Host) (i new : nat) : option Host :=
    match nth_error (ho_callers h) i with
    | None => None
    | Some t =>
        match ca_todo t with
        | [] => None
        | (env0, c) :: rest =>
            let env := with_address env0 new in
            let w := world_of h t in
            match ca_place t with
            | Outside =>
                match plan_of env c with
                | Fixed r => Some (returns h i (env, c) rest (ho_locks h) (wrap w r))
                | Making m => Some (goes_on h i t (ho_locks h) (Made m))
                | Locking None _ => Some (returns h i (env, c) rest (ho_locks h) (wrap w (Some (Err EOther))))
                | Locking (Some a) k =>
                    match hget Nat.eqb a (ho_clients h) with
                    | None => Some (returns h i (env, c) rest (ho_locks h) (wrap w None))
                    | Some cl =>
                        if is_held h a then None
                        else if cl_poisoned cl then Some (returns h i (env, c) rest (ho_locks h) (wrap w (Some (Err EOther))))
                        else Some (goes_on h i t ((a, i) :: ho_locks h) (Inside a k))
                    end
                | Freeing p =>
                    let wr := match p with
                              | Some a => if is_held h a then wrap w None else destroy_client w p
                              | None => destroy_client w p
                              end in
                    Some (returns h i (env, c) rest (ho_locks h) wr)
                end
            | Made m =>
                match hget Nat.eqb new (ho_clients h) with
                | Some _ => None
                | None => Some (returns h i (env, c) rest (ho_locks h) (new_client w env m))
                end
            | Inside a k =>
                Some (goes_on h i t (ho_locks h)
                        (Leaving a (match hget Nat.eqb a (ho_clients h) with Some cl => k (cl_engine cl) | None => None end)))
            | Leaving a r =>
                Some (returns h i (env, c) rest (unlock (ho_locks h) a)
                        (match r with Some Panic => (poison w a, RPanic) | _ => wrap w r end))
            end
        end
    end.

  (** A schedule says which thread runs next, and which address the allocator would give.
      A thread that cannot run does nothing.  The scheduler is external. *)
  Fixpoint hrun (h : Host) (schedule : list (nat * nat)) : Host :=
    match schedule with
    | [] => h
    | (i, new) :: r => hrun (match hstep h i new with Some h1 => h1 | None => h end) r
    end.
  (** No thread has begun. *)
  Definition hstart (clients : list (nat * Client)) (programs : list (list (Env * call))) : Host :=
    mkHost clients [] (map (fun p => mkCaller Outside p None) programs) [].
End Share.
