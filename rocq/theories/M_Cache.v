(** Model of src/entity_parser/: the cache, the caching entity parsers and their use by
    several threads. *)
From Coq Require Import String List NArith ZArith Bool Arith.
From Verif Require Import Base M_Types.
Import ListNotations.
Local Open Scope nat_scope.

(** ** [lru_cache::LruCache] (external crate, its documented behaviour) *)

(** Keys: builtin_entity_parser.rs:26-31 and custom_entity_parser.rs:61-66 (lower-cased
    text, filter, number of alternatives). *)
Record CacheKey := mkKey { ck_input : str; ck_kinds : option (list str); ck_alts : nat }.

(** Equality of options, for [key_eqb]. *)
Definition opt_eqb {A} (eqb : A -> A -> bool) (a b : option A) : bool :=
  match a, b with
  | Some x, Some y => eqb x y
  | None, None => true
  | _, _ => false
  end.
(** the derived [PartialEq].  builtin_entity_parser.rs:26-31, custom_entity_parser.rs:61-66 *)
Definition key_eqb (a b : CacheKey) : bool :=
  str_eqb (ck_input a) (ck_input b) && opt_eqb (list_eqb str_eqb) (ck_kinds a) (ck_kinds b)
  && (ck_alts a =? ck_alts b).

Section WithValues.
  Context {V : Type}.

  (** Entries, the most recently used first.  [LruCache] (external), behind
      entity_parser/utils.rs:7-10. *)
  Definition lru := list (CacheKey * V).

  (** Helper for the two methods of [LruCache] below. *)
  Fixpoint lru_find (k : CacheKey) (c : lru) : option V :=
    match c with
    | [] => None
    | (k', v) :: r => if key_eqb k k' then Some v else lru_find k r
    end.
  (** Helper for the two methods of [LruCache] below. *)
  Definition lru_remove (k : CacheKey) (c : lru) : lru := filter (fun e => negb (key_eqb k (fst e))) c.

  (** [get_mut] makes the entry the most recently used one.  Used in
      entity_parser/utils.rs:22. *)
  Definition lru_get (k : CacheKey) (c : lru) : option V * lru :=
    match lru_find k c with
    | Some v => (Some v, (k, v) :: lru_remove k c)
    | None => (None, c)
    end.
  (** [insert] removes the least recently used entry when the capacity is exceeded.  Used
      in entity_parser/utils.rs:27. *)
  Definition lru_insert (cap : nat) (k : CacheKey) (v : V) (c : lru) : lru :=
    let c' := (k, v) :: lru_remove k c in
    if cap <? length c' then removelast c' else c'.

  (** entity_parser/utils.rs:21-29 *)
  Definition try_cache (cap : nat) (k : CacheKey) (producer : CacheKey -> outcome V) (c : lru) : outcome V * lru :=
    match lru_get k c with
    | (Some v, c') => (Ok v, c')
    | (None, c') =>
        match producer k with
        | Ok v => (Ok v, lru_insert cap k v c')
        | Err e => (Err e, c')
        | Panic => (Panic, c')
        end
    end.

  (** ** The caching parsers, for one thread *)

  (** The state behind the mutex, and whether the mutex is poisoned (a thread panicked
      while it held the lock).  builtin_entity_parser.rs:21-24,
      custom_entity_parser.rs:55-59. *)
  Record Shared := mkShared { sh_cache : lru; sh_poisoned : bool }.

  (** A call of [extract_entities].  The custom entity parser always uses the cache.
      builtin_entity_parser.rs:34-40, custom_entity_parser.rs:69-74. *)
  Record Request := mkRq { rq_text : str; rq_kinds : option (list str); rq_cached : bool; rq_alts : nat }.

  Context (lower : str -> str)                                             (* str::to_lowercase *)
          (raw : str -> option (list str) -> nat -> outcome V)             (* the uncached parser *)
          (cap : nat).

  (** builtin_entity_parser.rs:41 and 49-53, custom_entity_parser.rs:75-80 *)
  Definition key_of_request (r : Request) : CacheKey := mkKey (lower (rq_text r)) (rq_kinds r) (rq_alts r).
  (** The closure given to [try_cache], builtin_entity_parser.rs:60-66 and
      custom_entity_parser.rs:85-91: the text of the key, the filter and number of the call. *)
  Definition producer (r : Request) (k : CacheKey) : outcome V := raw (ck_input k) (rq_kinds r) (rq_alts r).

  (** builtin_entity_parser.rs:34-65; custom_entity_parser.rs:69-92 is the case
      [rq_cached r = true].  [lock().unwrap()] panics when the mutex is poisoned, before
      anything else happens.  A panic of the producer happens while the lock is held. *)
  Definition extract (sh : Shared) (r : Request) : outcome V * Shared :=
    if negb (rq_cached r) then (raw (lower (rq_text r)) (rq_kinds r) (rq_alts r), sh)
    else if sh_poisoned sh then (Panic, sh)
    else
      let (res, c) := try_cache cap (key_of_request r) (producer r) (sh_cache sh) in
      (res, mkShared c (match res with Panic => true | _ => false end)).

  (** ** Several threads sharing a parser *)

  (** What a thread is about to do: begin its next call; or, holding the lock, look the
      key up, call the parser, insert its answer, return and release the lock.  Positions
      in builtin_entity_parser.rs:42-64 and entity_parser/utils.rs:21-29. *)
  Inductive Pc :=
  | Idle
  | LookUp
  | Call
  | Insert (v : V)
  | Return (res : outcome V).

  (** A thread: where it is, the calls it still has to make (the first one is the current
      call), the answers it got.  A call that panics ends the thread.  The callers of the
      library: no counterpart in the code. *)
  Record Thread := mkTh { th_pc : Pc; th_todo : list Request; th_done : list (Request * outcome V); th_dead : bool }.

  (** The shared parser with its mutex (builtin_entity_parser.rs:21-24) and the callers. *)
  Record System := mkSys { sy_shared : Shared; sy_lock : option nat; sy_threads : list Thread }.

  (** The return of builtin_entity_parser.rs:34-65. *)
  Definition finish (r : Request) (rest : list Request) (t : Thread) (res : outcome V) : Thread :=
    mkTh Idle rest (th_done t ++ [(r, res)]) (match res with Panic => true | _ => false end).

  (** One step of thread [i]; [None] when it has nothing to do or waits for the lock.
      Steps follow try_cache line by line; other threads may run between any two steps. *)
  Definition step_thread (i : nat) (sh : Shared) (lock : option nat) (t : Thread)
      : option (Shared * option nat * Thread) :=
    if th_dead t then None
    else
      match th_todo t with
      | [] => None
      | r :: rest =>
          match th_pc t with
          | Idle =>
              if negb (rq_cached r)
              then Some (sh, lock, finish r rest t (raw (lower (rq_text r)) (rq_kinds r) (rq_alts r)))
              else match lock with
                   | Some _ => None
                   | None => if sh_poisoned sh then Some (sh, None, finish r rest t Panic)
                             else Some (sh, Some i, mkTh LookUp (r :: rest) (th_done t) false)
                   end
          | LookUp =>
              match lru_get (key_of_request r) (sh_cache sh) with
              | (Some v, c) => Some (mkShared c (sh_poisoned sh), lock, mkTh (Return (Ok v)) (r :: rest) (th_done t) false)
              | (None, c) => Some (mkShared c (sh_poisoned sh), lock, mkTh Call (r :: rest) (th_done t) false)
              end
          | Call =>
              match producer r (key_of_request r) with
              | Ok v => Some (sh, lock, mkTh (Insert v) (r :: rest) (th_done t) false)
              | Err e => Some (sh, lock, mkTh (Return (Err e)) (r :: rest) (th_done t) false)
              | Panic => Some (mkShared (sh_cache sh) true, None, finish r rest t Panic)
              end
          | Insert v =>
              Some (mkShared (lru_insert cap (key_of_request r) v (sh_cache sh)) (sh_poisoned sh), lock,
                    mkTh (Return (Ok v)) (r :: rest) (th_done t) false)
          | Return res => Some (sh, None, finish r rest t res)
          end
      end.

  (** Helper, no counterpart in the code. *)
  Fixpoint set_nth {A} (i : nat) (a : A) (l : list A) : list A :=
    match l, i with
    | [], _ => []
    | _ :: r, 0 => a :: r
    | b :: r, S i => b :: set_nth i a r
    end.

  (** A step of the thread that the scheduler (external) chooses. *)
  Definition step (s : System) (i : nat) : option System :=
    match nth_error (sy_threads s) i with
    | None => None
    | Some t =>
        match step_thread i (sy_shared s) (sy_lock s) t with
        | None => None
        | Some (sh, lock, t') => Some (mkSys sh lock (set_nth i t' (sy_threads s)))
        end
    end.

  (** A schedule names the thread that runs next; a thread that cannot run is skipped.  The
      scheduler is external. *)
  Definition run (s : System) (schedule : list nat) : System :=
    fold_left (fun s i => match step s i with Some s' => s' | None => s end) schedule s.

  (** builtin_entity_parser.rs:72: an empty cache; no thread has begun. *)
  Definition start (programs : list (list Request)) : System :=
    mkSys (mkShared [] false) None (map (fun p => mkTh Idle p [] false) programs).
End WithValues.
Arguments lru : clear implicits.
Arguments Shared : clear implicits.
Arguments Thread : clear implicits.
Arguments System : clear implicits.

(** ** The custom entity parser *)

(** custom_entity_parser.rs:133-153; the loop, with the end of the previous token and the
    current shift.  Numbers are [i32]. *)
Fixpoint char_shifts_from (first : bool) (previous_end shift : Z) (tokens : list token) : list Z :=
  match tokens with
  | [] => []
  | t :: r =>
      let space_len := if first then 0%Z else 1%Z in
      let shift := as_i32 (shift - (as_i32 (Z.of_nat (rstart (tk_char_range t)) - previous_end) - space_len)) in
      let len := as_i32 (Z.of_nat (rend (tk_char_range t) - rstart (tk_char_range t))) in
      repeat shift (Z.to_nat (as_i32 (len + space_len)))
      ++ char_shifts_from false (as_i32 (Z.of_nat (rend (tk_char_range t)))) shift r
  end.
(** custom_entity_parser.rs:133-153 *)
Definition compute_char_shifts (tokens : list token) : list Z := char_shifts_from true 0 0 tokens.

(** custom_entity_parser.rs:113-120 *)
Definition remap (shifts : list Z) (r : range) : outcome range :=
  let* s := index shifts (rstart r) in
  let* last := usub (rend r) 1 in
  let* e := index shifts last in
  Ok (as_usize (as_i32 (as_i32 (Z.of_nat (rstart r)) - s)), as_usize (as_i32 (as_i32 (Z.of_nat (rend r)) - e))).

(** custom_entity_parser.rs:96-122; [gaz] is [GazetteerParser::extract_entities]
    (external). *)
Definition custom_extract (x : Ext) (l : lang) (gaz : str -> option (list str) -> nat -> outcome (list CustomEntity))
    (sentence : str) (kinds : option (list str)) (alts : nat) : outcome (list CustomEntity) :=
  let tokens := x_tokenize x l sentence in
  let shifts := compute_char_shifts tokens in
  let* es := gaz (join [space] (map tk_value tokens)) kinds alts in
  mapM (fun e => let* r := remap shifts (ce_range e) in
                 Ok (mkCE (ce_value e) (ce_resolved e) (ce_alternatives e) r (ce_entity e))) es.
