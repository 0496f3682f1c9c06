(** Specification vocabulary for the entity caches. *)
From Coq Require Import String List NArith ZArith.
From Verif Require Import Base M_Types M_Cache S_Base S_Det.
Import ListNotations.
Local Open Scope nat_scope.

Section WithValues.
  Context {V : Type} (lower : str -> str) (raw : str -> option (list str) -> nat -> outcome V) (cap : nat).

  (** What the parser without a cache answers, on the lower-cased text. *)
  Definition answer (r : Request) : outcome V := raw (lower (rq_text r)) (rq_kinds r) (rq_alts r).

  (** The same call up to the case of the text. *)
  Definition same_request (r r' : Request) : Prop :=
    lower (rq_text r) = lower (rq_text r') /\ rq_kinds r = rq_kinds r' /\ rq_alts r = rq_alts r' /\
    rq_cached r = rq_cached r'.

  (** The answers to a sequence of calls, and the state after it. *)
  Fixpoint calls (sh : Shared V) (h : list Request) : list (outcome V) * Shared V :=
    match h with
    | [] => ([], sh)
    | r :: h => let (a, sh1) := extract lower raw cap sh r in
                let (l, sh2) := calls sh1 h in (a :: l, sh2)
    end.
  Definition fresh : Shared V := mkShared [] false.

  (** The requests that went through the cache and succeeded, in order. *)
  Definition is_success (r : Request) : bool :=
    rq_cached r && match answer r with Ok _ => true | _ => false end.
  Definition used_keys (h : list Request) : list CacheKey :=
    map (key_of_request lower) (filter is_success h).

  (** No cached call of the history panics. *)
  Definition no_cached_panic (h : list Request) : Prop :=
    forall r, In r h -> rq_cached r = true -> answer r <> Panic.
End WithValues.

Definition key_dec (a b : CacheKey) : {a = b} + {a <> b}.
Proof. repeat decide equality. Defined.

(** [k] was used, and since its last use fewer than [cap] other keys were. *)
Definition recently_used (cap : nat) (used : list CacheKey) (k : CacheKey) : Prop :=
  exists before after, used = before ++ k :: after /\ ~ In k after /\ length (nodup key_dec after) < cap.

(** ** Threads *)

(** Calls of several threads with their answers, in some order: what thread [i] sees. *)
Definition of_thread {A} (i : nat) (h : list (nat * A)) : list A :=
  map snd (filter (fun e => Nat.eqb (fst e) i) h).

(** The order [h] explains what happened: run one after the other, the calls get these
    answers; each thread got its answers in the order of its program; when no thread holds
    the lock, the shared state is the one of the sequential run. *)
Definition explains {V} (lower : str -> str) (raw : str -> option (list str) -> nat -> outcome V) (cap : nat)
    (programs : list (list Request)) (h : list (nat * (Request * outcome V))) (s : System V) : Prop :=
  let sequential := calls lower raw cap fresh (map (fun e => fst (snd e)) h) in
  fst sequential = map (fun e => snd (snd e)) h /\
  (sy_lock s = None -> sy_shared s = snd sequential) /\
  length (sy_threads s) = length programs /\
  forall i t p, nth_error (sy_threads s) i = Some t -> nth_error programs i = Some p ->
    th_done t = of_thread i h /\ p = map fst (th_done t) ++ th_todo t.

(** The thread holds the lock. *)
Definition in_critical_section {V} (s : System V) (i : nat) : Prop :=
  exists t, nth_error (sy_threads s) i = Some t /\ th_pc t <> Idle.

(** The thread has calls to make. *)
Definition unfinished {V} (s : System V) (i : nat) : Prop :=
  exists t, nth_error (sy_threads s) i = Some t /\ th_dead t = false /\ th_todo t <> [].

(** Steps that remain to be done: at most five per call. *)
Definition steps_left {V} (t : Thread V) : nat :=
  if th_dead t then 0
  else 5 * length (th_todo t) -
       match th_pc t with Idle => 0 | LookUp => 1 | Call => 2 | Insert _ => 3 | Return _ => 4 end.
Definition work {V} (s : System V) : nat := fold_right (fun t n => steps_left t + n) 0 (sy_threads s).

(** ** The custom entity parser *)

(** Position of the first character of token [k] in the tokens joined by blanks. *)
Definition joined_start (toks : list token) (k : nat) : nat :=
  length (concat (map (fun t => tk_value t ++ [space]) (firstn k toks))).

(** Position [p] of the joined text is character [o] of token [k], which is [t]. *)
Definition joined_at (toks : list token) (p k o : nat) (t : token) : Prop :=
  nth_error toks k = Some t /\ o < length (tk_value t) /\ p = joined_start toks k + o.

(** The entity found in the joined text is reported as is, except that its range is moved:
    if it starts with character [oa] of token [ta] and its last character is character [ob]
    of token [tb], it is reported from that character of the text to that one. *)
Definition moved_entity (toks : list token) (e e' : CustomEntity) : Prop :=
  ce_value e' = ce_value e /\ ce_resolved e' = ce_resolved e /\
  ce_alternatives e' = ce_alternatives e /\ ce_entity e' = ce_entity e /\
  forall a oa ta b ob tb,
    joined_at toks (rstart (ce_range e)) a oa ta -> joined_at toks (rend (ce_range e) - 1) b ob tb -> 0 < rend (ce_range e) ->
    ce_range e' = (rstart (tk_char_range ta) + oa, rstart (tk_char_range tb) + ob + 1).

(** How [str::to_lowercase] works: every character is replaced by its lower-case form
    [f], except that a capital sigma may become a final sigma, depending on its context. *)
Definition capital_sigma : char := 931%N.
Definition final_sigma : char := 962%N.
Definition lowers_to (f : char -> str) (c : char) (piece : str) : Prop :=
  piece = f c \/ (c = capital_sigma /\ piece = [final_sigma]).
Definition lowercasing (lower : str -> str) (f : char -> str) : Prop :=
  forall s, exists pieces, Forall2 (lowers_to f) s pieces /\ lower s = concat pieces.

(** The lower-case form of each character of the text is one character. *)
Definition charwise (f : char -> str) (text : str) : Prop := forall c, In c text -> length (f c) = 1.
(** Two texts of the same length, the second one the lower-case form of the first. *)
Definition lower_case_of (f : char -> str) (s t : str) : Prop := Forall2 (fun c d => lowers_to f c [d]) s t.
