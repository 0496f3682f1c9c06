(** What threads that share an engine rely on. *)
From Coq Require Import String List NArith ZArith Bool Arith.
From Verif Require Import Base F32 M_Types M_Engine M_Prob M_Filler M_Cache M_Res M_Fs M_Json M_Load M_Threads S_Made.
Import ListNotations.
Local Open Scope nat_scope.

(** The parts without caches, locks and other threads: each question is answered by the
    parser or the tagger itself. *)
Definition plain_parts (pt : Parts) : Oracle :=
  mkOracle (fun s k _ n => pt_builtin pt (pt_lower pt s) k n)
           (fun s k n => pt_custom pt (pt_lower pt s) k n)
           (pt_tag pt).

(** A question whose answer is a panic of the parser or of the tagger. *)
Definition panics (pt : Parts) (q : query) : Prop :=
  match ask (plain_parts pt) q with ABuiltin r => r = Panic | ACustom r => r = Panic | ATags r => r = Panic end.

(** The parts of the engine of a directory. *)
Record parts_at (x : Ext) (L : Loader) (fo : path -> orders) (f : fs) (p : path) (pt : Parts) : Prop := mkPartsAt {
  pa_lower : pt_lower pt = x_lower x;
  pa_builtin : forall m, load_model L fo f p = Ok m -> ld_builtin L f (pjoin p (em_builtin m)) = Ok (pt_builtin pt);
  pa_custom : forall m, load_model L fo f p = Ok m ->
    exists md l gaz, read_json L f (pjoin (pjoin p (em_custom m)) $"metadata.json") d_custom_metadata = Ok md /\
      ld_lang L (cu_language md) = Some l /\
      ld_gazetteer L f (pjoin (pjoin p (em_custom m)) (cu_directory md)) = Ok gaz /\
      pt_custom pt = custom_extract x l gaz;
  pa_tagger : forall file t, ld_tagger L f file = Ok t -> pt_tag pt file = tg_tag t }.

Section Threads.
  Context (pt : Parts) {R : Type}.

  (** A thread works under a lock. *)
  Definition holds (s : Threads (R := R)) (i : nat) (l : lock) : Prop :=
    exists tr q w todo dn, nth_error (ts_workers s) i = Some (mkWorker (Holding tr q w) todo dn) /\ lock_of q = Some l.
  (** A thread in a call. *)
  Definition in_call (s : Threads (R := R)) (i : nat) : Prop :=
    exists tr todo dn, nth_error (ts_workers s) i = Some (mkWorker (Calling tr) todo dn).

  Inductive steps (i : nat) : nat -> Threads (R := R) -> Threads -> Prop :=
  | steps_none : forall s, steps i 0 s s
  | steps_more : forall n s s' s'', tstep pt i s s' -> steps i n s' s'' -> steps i (S n) s s''.

  (** A call whose result only depends on the answers to some questions. *)
  Definition settled_by (qs : list query) (c : method (R := R)) : Prop :=
    forall o, (forall q, In q qs -> ask o q = ask (plain_parts pt) q) -> c o = c (plain_parts pt).
End Threads.

(** A call of the engine of a directory. *)
Definition on_engine {A} (x : Ext) (shape : str -> str) (ngrams : list str -> nat -> list str) (mx : Math) (L : Loader)
    (fo : path -> orders) (uo : path -> nat -> HashOrder) (f : fs) (p : path) (k : Engine -> outcome A)
    : method (R := outcome A) :=
  fun o => let* en := engine_asking x shape ngrams mx L fo uo f p o in k en.

(** An engine all of whose entities and tags come from the oracle: besides, it is made of the
    files of its directory (C77). *)
Definition asks_for_everything (x : Ext) (shape : str -> str) (ngrams : list str -> nat -> list str) (mx : Math) (L : Loader)
    (fo : path -> orders) (uo : path -> nat -> HashOrder) (f : fs) (p : path) (o : Oracle) (en : Engine) : Prop :=
  rs_builtin (en_resources en) = o_builtin o /\ rs_custom (en_resources en) = o_custom o /\
  exists m L', file_says L fo f p $"nlu_engine.json" d_engine m /\
    (ld_json L', ld_f32 L', ld_lang L', ld_regex L') = (ld_json L, ld_f32 L, ld_lang L, ld_regex L) /\
    (forall file t, ld_tagger L' f file = Ok t -> tg_tag t = o_tag o file) /\
    Forall2 (fun name ip => parser_at x shape ngrams mx L' fo uo f (en_resources en) (pjoin p name) ip)
            (em_parsers m) (en_parsers en).

(** The answer of a poisoned lock: a panic of the calling thread for the entity parsers, an
    error for a tagger. *)
Definition refused (a : answer) : Prop := a = ABuiltin Panic \/ a = ACustom Panic \/ exists e, a = ATags (Err e).
(** A parser or a tagger panicked. *)
Definition panicked (a : answer) : Prop := a = ABuiltin Panic \/ a = ACustom Panic \/ a = ATags Panic.
(** The answers that a thread has received in its current call. *)
Definition received {R} (s : Threads (R := R)) (i : nat) : trace :=
  match nth_error (ts_workers s) i with
  | Some w => match wk_position w with Between => [] | Calling tr | Holding tr _ _ => tr end
  | None => []
  end.
