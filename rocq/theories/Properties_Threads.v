(** Property C80: threads that share an engine. *)
From Coq Require Import String List NArith ZArith Bool Arith.
From Verif Require Import Base F32 M_Types M_Engine M_Prob M_Filler M_Cache M_Fs M_Json M_Load M_Threads S_Threads P_Arc P_Asks
                          Demo Demo_Load Demo_Home Demo_Threads.
Import ListNotations.
Local Open Scope nat_scope.

(** Whatever the interleaving, as long as no parser and no tagger has panicked, each call
    that has returned returned what it returns without caches, locks and other threads. *)
Theorem C80_answers : forall (pt : Parts) (R : Type) (programs : list (list (method (R := R)))) s i w c r,
  reach pt programs s -> (forall l, ts_poisoned s l = false) ->
  nth_error (ts_workers s) i = Some w -> In (c, r) (wk_done w) -> r = c (plain_parts pt).
Proof. exact @thread_answers. Qed.
Print Assumptions C80_answers.

(** The same for the calls of the engine that was loaded from a directory: the [n]th answer
    of a thread is what the [n]th call of its program answers on that engine. *)
Theorem C80_engine : forall x shape ngrams mx L fo uo f p pt (A : Type) en
    (programs : list (list (Engine -> outcome A))) s i w prog n k c r,
  parts_at x L fo f p pt -> from_path x shape ngrams mx L fo uo f p = Ok en ->
  reach pt (map (map (on_engine x shape ngrams mx L fo uo f p)) programs) s -> (forall l, ts_poisoned s l = false) ->
  nth_error (ts_workers s) i = Some w -> nth_error programs i = Some prog -> nth_error prog n = Some k ->
  nth_error (wk_done w) n = Some (c, r) -> r = k en.
Proof. exact @engine_answers. Qed.
Print Assumptions C80_engine.

(** Each thread makes the calls of its program, in order. *)
Theorem C80_program_order : forall (pt : Parts) (R : Type) (programs : list (list (method (R := R)))) s i w,
  reach pt programs s -> nth_error (ts_workers s) i = Some w ->
  nth_error programs i = Some (map fst (wk_done w) ++ wk_todo w).
Proof. exact @thread_order. Qed.
Print Assumptions C80_program_order.

(** At most one thread works under a lock. *)
Theorem C80_one_at_a_time : forall (pt : Parts) (R : Type) (programs : list (list (method (R := R)))) s i j l,
  reach pt programs s -> holds s i l -> holds s j l -> i = j.
Proof. exact @thread_alone. Qed.
Print Assumptions C80_one_at_a_time.

(** A thread in a call can ask any question now, or another thread, which works under the
    lock that the question needs, can go on. *)
Theorem C80_no_deadlock : forall (pt : Parts) (R : Type) (programs : list (list (method (R := R)))) s i q,
  reach pt programs s -> in_call s i ->
  (exists s', tstep pt i s s' /\
     (lock_of q = None \/ exists l, lock_of q = Some l /\ (holds s' i l \/ ts_poisoned s l = true))) \/
  (exists l j s', lock_of q = Some l /\ holds s j l /\ j <> i /\ tstep pt j s s').
Proof. exact @thread_no_deadlock. Qed.
Print Assumptions C80_no_deadlock.

(** A thread that works under a lock gives it back after at most four steps of its own. *)
Theorem C80_lock_released : forall (pt : Parts) (R : Type) (programs : list (list (method (R := R)))) s i l,
  reach pt programs s -> holds s i l ->
  exists n s', n <= 4 /\ steps pt i n s s' /\ ts_locks s' l = None /\ in_call s' i.
Proof. exact @holder_leaves. Qed.
Print Assumptions C80_lock_released.

(** A call that needs finitely many answers can always be completed when no other thread
    works under a lock, if none of its questions panics. *)
Theorem C80_completes : forall (pt : Parts) (R : Type) (programs : list (list (method (R := R)))) s i c qs rest dn,
  (forall q, In q qs -> ~ panics pt q) -> reach pt programs s -> (forall l, ts_poisoned s l = false) ->
  (forall j l, ~ holds s j l) -> settled_by pt qs c ->
  nth_error (ts_workers s) i = Some (mkWorker Between (c :: rest) dn) ->
  exists n s', steps pt i n s s' /\
    nth_error (ts_workers s') i = Some (mkWorker Between rest (dn ++ [(c, c (plain_parts pt))])) /\
    (forall j, j <> i -> nth_error (ts_workers s') j = nth_error (ts_workers s) j) /\
    (forall l, ts_poisoned s' l = false) /\ (forall j l, ~ holds s' j l).
Proof. exact @thread_completes. Qed.
Print Assumptions C80_completes.

(** A lock is poisoned only after a question that needs it made a parser or a tagger panic. *)
Theorem C80_poison_cause : forall (pt : Parts) (R : Type) (programs : list (list (method (R := R)))) s l,
  reach pt programs s -> ts_poisoned s l = true -> exists q, lock_of q = Some l /\ panics pt q.
Proof. exact @thread_poisoned. Qed.
Print Assumptions C80_poison_cause.

(** A question that panics under a lock poisons it. *)
Theorem C80_poisons : forall (pt : Parts) (R : Type) (programs : list (list (method (R := R)))) s s' i l q a,
  tstep pt i s s' -> received s' i = received s i ++ [(q, a)] -> lock_of q = Some l -> panicked a ->
  reach pt programs s -> ts_poisoned s' l = true.
Proof. exact @panicking_poisons. Qed.
Print Assumptions C80_poisons.

(** Then it is poisoned for ever, and no thread works under it any more. *)
Theorem C80_poison_stays : forall (pt : Parts) (R : Type) (programs : list (list (method (R := R)))) s l,
  reach pt programs s -> ts_poisoned s l = true ->
  (forall i, ~ holds s i l) /\ forall i s', tstep pt i s s' -> ts_poisoned s' l = true.
Proof. exact @poison_for_ever. Qed.
Print Assumptions C80_poison_stays.

(** A thread that needs it panics, or gets an error if it is the lock of a tagger. *)
Theorem C80_refused : forall (pt : Parts) (R : Type) (programs : list (list (method (R := R)))) s s' i l q a,
  reach pt programs s -> ts_poisoned s l = true -> tstep pt i s s' ->
  received s' i = received s i ++ [(q, a)] -> lock_of q = Some l -> refused a.
Proof. exact @poisoned_refuses. Qed.
Print Assumptions C80_refused.

(** All the entities and tags that an engine uses are asked for in this way. *)
Theorem C80_asks : forall x shape ngrams mx L fo uo f p o en,
  engine_asking x shape ngrams mx L fo uo f p o = Ok en -> asks_for_everything x shape ngrams mx L fo uo f p o en.
Proof. exact engine_asks. Qed.
Print Assumptions C80_asks.

(** Two threads that parse a text with the engine of Demo_Home, which asks both entity
    parsers and a tagger: they both get the answer of the engine; one waits for the other;
    and a tagger that panics poisons its lock, then gives errors. *)
Example C80_case :
  parts_at demo_ext home_loader (fun _ _ => id_order) home dir_e home_parts /\ load_home = Ok home_engine /\
  (exists s, reach home_parts (map (map home_call) two_threads) s /\ (forall l, ts_poisoned s l = false) /\
     forall i, i < 2 -> nth_error (ts_workers s) i = Some (mkWorker Between [] [(turn_call, turn_result)])) /\
  (exists s, reach home_parts (map (map home_call) two_threads) s /\ holds s 0 LBuiltin /\ in_call s 1) /\
  settled_by home_parts turn_questions turn_call /\ (forall q, In q turn_questions -> ~ panics home_parts q) /\
  (exists s s', reach bad_parts (map (map home_call) two_threads) s /\ tstep bad_parts 0 s s' /\
     received s' 0 = received s 0 ++ [(QTag turn_tagger turn_features, ATags Panic)] /\ panicked (ATags Panic)) /\
  exists s s', reach bad_parts (map (map home_call) two_threads) s /\ ts_poisoned s (LTagger turn_tagger) = true /\
    tstep bad_parts 1 s s' /\ received s' 1 = received s 1 ++ [(QTag turn_tagger turn_features, ATags (Err EOther))].
Proof.
  exact (conj home_parts_at (conj home_eq (conj both_return (conj one_waits (conj turn_settled (conj turn_no_panic (conj tagger_panics tagger_refuses))))))).
Qed.
