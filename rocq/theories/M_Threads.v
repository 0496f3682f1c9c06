(** Model of an engine that several threads of a Rust program share: the locks around the
    caches of the entity parsers (src/entity_parser/builtin_entity_parser.rs:21-66,
    custom_entity_parser.rs:56-92) and around the taggers of the slot fillers
    (src/slot_filler/crf_slot_filler.rs:25-31, 84-114).  The rest of an engine is never
    changed after it was loaded. *)
From Coq Require Import String List NArith ZArith Bool Arith.
From Verif Require Import Base F32 M_Types M_Engine M_Prob M_Filler M_Cache M_Fs M_Json M_Load.
Import ListNotations.
Local Open Scope nat_scope.

(** ** What the code of an engine asks the shared parts *)
Inductive query :=
| QBuiltin (text : str) (kinds : option (list kind)) (cached : bool) (alts : nat)
| QCustom (text : str) (kinds : option (list str)) (alts : nat)
| QTag (tagger : path) (fs : features).
(** What the functions asked return. *)
Inductive answer :=
| ABuiltin (r : outcome (list BuiltinEntity))
| ACustom (r : outcome (list CustomEntity))
| ATags (r : outcome (list str)).
(** The functions through which the code asks: the two entity parsers of the shared
    resources, and the taggers.  src/resources/mod.rs:14-21 and crf_slot_filler.rs:25-31. *)
Record Oracle := mkOracle {
  o_builtin : BuiltinParser;
  o_custom : CustomParser;
  o_tag : path -> features -> outcome (list str) }.
(** The call of the function asked. *)
Definition ask (o : Oracle) (q : query) : answer :=
  match q with
  | QBuiltin s k c n => ABuiltin (o_builtin o s k c n)
  | QCustom s k n => ACustom (o_custom o s k n)
  | QTag t fs => ATags (o_tag o t fs)
  end.

(** ** An engine that asks an oracle *)
(** src/resources/mod.rs:14-21: the same resources, with other entity parsers. *)
Definition plug (o : Oracle) (res : Resources) : Resources :=
  mkRes (o_builtin o) (o_custom o) (rs_gazetteers res) (rs_stemmer res) (rs_clusterers res) (rs_stop_words res).
(** crf_slot_filler.rs:25-31: the same taggers, except that tags are asked for. *)
Definition plug_taggers (o : Oracle) (L : Loader) (f : fs) : Loader :=
  mkLoader (ld_json L) (ld_f32 L) (ld_lang L) (ld_lang_name L) (ld_regex L) (ld_builtin L) (ld_gazetteer L)
    (fun _ p => let* t := ld_tagger L f p in Ok (mkTagger (tg_labels t) (o_tag o p) (tg_probability t))).
(** nlu_engine.rs:34-53, as M_Load.from_path *)
Definition engine_asking (x : Ext) (shape : str -> str) (ngrams : list str -> nat -> list str) (mx : Math) (L : Loader)
    (fo : path -> orders) (uo : path -> nat -> HashOrder) (f : fs) (p : path) (o : Oracle) : outcome Engine :=
  let* m := load_model L fo f p in
  let* res := resources_of x L uo f p m in
  let* parsers := load_intent_parsers x shape ngrams mx (plug_taggers o L f) fo uo f p m (plug o res) in
  Ok (mkEngine (em_dataset m) parsers (plug o res)).

(** ** The shared parts *)
(** What they compute: the two entity parsers without their caches, and the taggers.
    builtin_entity_parser.rs:22, custom_entity_parser.rs:57, crf_slot_filler.rs:25-31. *)
Record Parts := mkParts {
  pt_lower : str -> str;                                                            (* str::to_lowercase *)
  pt_builtin : str -> option (list kind) -> nat -> outcome (list BuiltinEntity);
  pt_custom : str -> option (list str) -> nat -> outcome (list CustomEntity);
  pt_tag : path -> features -> outcome (list str);
  pt_builtin_capacity : nat;
  pt_custom_capacity : nat }.

(** What is behind the locks: the two caches, and the sentence that each tagger was given
    (crfsuite keeps the items that were set last).  Taggers are named by their files: two
    slot fillers that load the same file count as one tagger here.
    builtin_entity_parser.rs:23, custom_entity_parser.rs:58. *)
Record Contents := mkContents {
  ct_builtin : lru (list BuiltinEntity);
  ct_custom : lru (list CustomEntity);
  ct_items : path -> option features }.
(** The mutexes of builtin_entity_parser.rs:23, custom_entity_parser.rs:58, crf_slot_filler.rs:25-31. *)
Inductive lock := LBuiltin | LCustom | LTagger (t : path).
(** Equality of paths and of locks is decidable.  No counterpart in the code. *)
Definition comp_eq_dec (a b : comp) : {a = b} + {a <> b}.
Proof. decide equality. apply (list_eq_dec N.eq_dec). Defined.
(** No counterpart in the code. *)
Definition path_eq_dec (a b : path) : {a = b} + {a <> b} := list_eq_dec comp_eq_dec a b.
(** No counterpart in the code. *)
Definition lock_eq_dec (a b : lock) : {a = b} + {a <> b}.
Proof. decide equality. apply path_eq_dec. Defined.

(** What is done while a lock is held, step by step: a change of the contents, then what
    follows, which may depend on the contents before the change.  No counterpart in the
    code. *)
Inductive work :=
| Done (a : answer)
| Then (change : Contents -> Contents) (next : Contents -> work).

Section Parts.
  Context (pt : Parts).

  (** The lock that a question needs; builtin_entity_parser.rs:42-48: none without cache. *)
  Definition lock_of (q : query) : option lock :=
    match q with
    | QBuiltin _ _ cached _ => if cached then Some LBuiltin else None
    | QCustom _ _ _ => Some LCustom
    | QTag t _ => Some (LTagger t)
    end.
  (** builtin_entity_parser.rs:42-48 *)
  Definition unlocked (q : query) : answer :=
    match q with
    | QBuiltin s k _ n => ABuiltin (pt_builtin pt (pt_lower pt s) k n)
    | QCustom s k n => ACustom (pt_custom pt (pt_lower pt s) k n)
    | QTag t fs => ATags (pt_tag pt t fs)
    end.

  (** Helper, no counterpart in the code. *)
  Definition set_builtin (c : Contents) (v : lru (list BuiltinEntity)) : Contents := mkContents v (ct_custom c) (ct_items c).
  (** Helper, no counterpart in the code. *)
  Definition set_custom (c : Contents) (v : lru (list CustomEntity)) : Contents := mkContents (ct_builtin c) v (ct_items c).
  (** Helper, no counterpart in the code. *)
  Definition set_items (c : Contents) (t : path) (fs : features) : Contents :=
    mkContents (ct_builtin c) (ct_custom c) (fun u => if path_eq_dec u t then Some fs else ct_items c u).

  (** entity_parser/utils.rs:21-29 inside builtin_entity_parser.rs:49-64 and
      custom_entity_parser.rs:76-92: look the key up, else call the parser, then insert. *)
  Definition cache_work {V} (get : Contents -> lru V) (set : Contents -> lru V -> Contents) (wrap : outcome V -> answer)
      (cap : nat) (k : CacheKey) (parser : outcome V) : work :=
    Then (fun c => set c (snd (lru_get k (get c))))
         (fun c => match fst (lru_get k (get c)) with
                   | Some v => Done (wrap (Ok v))
                   | None => Then (fun c => c) (fun _ =>
                       match parser with
                       | Ok v => Then (fun c => set c (lru_insert cap k v (get c))) (fun _ => Done (wrap (Ok v)))
                       | Err e => Done (wrap (Err e))
                       | Panic => Done (wrap Panic)
                       end)
                   end).
  (** crf_slot_filler.rs:94-97, [Tagger::tag]: the items are set, then the tagger runs. *)
  Definition tag_work (t : path) (fs : features) : work :=
    Then (fun c => set_items c t fs)
         (fun _ => Then (fun c => c) (fun c => Done (ATags (match ct_items c t with Some items => pt_tag pt t items | None => Err EOther end)))).
  (** builtin_entity_parser.rs:55-64, custom_entity_parser.rs:82-91, crf_slot_filler.rs:94-97. *)
  Definition work_of (q : query) : work :=
    match q with
    | QBuiltin s k _ n =>
        cache_work ct_builtin set_builtin ABuiltin (pt_builtin_capacity pt) (mkKey (pt_lower pt s) k n) (pt_builtin pt (pt_lower pt s) k n)
    | QCustom s k n =>
        cache_work ct_custom set_custom ACustom (pt_custom_capacity pt) (mkKey (pt_lower pt s) k n) (pt_custom pt (pt_lower pt s) k n)
    | QTag t fs => tag_work t fs
    end.
  (** A poisoned lock: [unwrap] for the caches, an error for the taggers.
      builtin_entity_parser.rs:56-57, custom_entity_parser.rs:83-84, crf_slot_filler.rs:95-96. *)
  Definition refusal (q : query) : answer :=
    match q with
    | QBuiltin _ _ _ _ => ABuiltin Panic
    | QCustom _ _ _ => ACustom Panic
    | QTag _ _ => ATags (Err EOther)
    end.
  (** Helper, no counterpart in the code. *)
  Definition is_panic (a : answer) : bool :=
    match a with ABuiltin Panic | ACustom Panic | ATags Panic => true | _ => false end.

  (** ** Threads *)
  Context {R : Type}.
  (** A call of an engine: what it returns, given the answers to what it asks.  The public
      methods of src/nlu_engine.rs:134-329. *)
  Definition method := Oracle -> R.
  (** No counterpart in the code. *)
  Definition trace := list (query * answer).
  (** No counterpart in the code. *)
  Definition consistent (o : Oracle) (tr : trace) : Prop := forall q a, In (q, a) tr -> ask o q = a.
  (** The answers that were received determine what the call returns.  No counterpart in
      the code. *)
  Definition determined (tr : trace) (c : method) (r : R) : Prop := forall o, consistent o tr -> c o = r.

  (** Where a thread is: between two calls; in a call, with the answers it has received;
      or working under a lock for a question.  No counterpart in the code. *)
  Inductive position :=
  | Between
  | Calling (tr : trace)
  | Holding (tr : trace) (q : query) (w : work).
  (** The callers of the library: no counterpart in the code. *)
  Record Worker := mkWorker { wk_position : position; wk_todo : list method; wk_done : list (method * R) }.
  (** The callers of the library: no counterpart in the code. *)
  Record Threads := mkThreads {
    ts_contents : Contents;
    ts_locks : lock -> option nat;
    ts_poisoned : lock -> bool;
    ts_workers : list Worker }.

  (** Helper, no counterpart in the code. *)
  Definition put {A} (l : list A) (i : nat) (a : A) : list A := firstn i l ++ a :: skipn (S i) l.
  (** Helper, no counterpart in the code. *)
  Definition set_lock (f : lock -> option nat) (l : lock) (o : option nat) : lock -> option nat :=
    fun m => if lock_eq_dec m l then o else f m.
  (** Helper, no counterpart in the code. *)
  Definition set_poison (f : lock -> bool) (l : lock) (b : bool) : lock -> bool :=
    fun m => if lock_eq_dec m l then b else f m.

  (** One step of thread [i].  Between two questions the code runs without touching what
      is shared, so that the steps of a call are its questions.  Which questions a call
      asks is left open: the code asks those it needs, until the answers determine what it
      returns.  A thread that needs a lock that is held has no step.  The scheduler is
      external. *)
  Inductive tstep (i : nat) : Threads -> Threads -> Prop :=
  | Begin : forall ct lk po ws c rest dn,
      nth_error ws i = Some (mkWorker Between (c :: rest) dn) ->
      tstep i (mkThreads ct lk po ws) (mkThreads ct lk po (put ws i (mkWorker (Calling []) (c :: rest) dn)))
  | AskUnlocked : forall ct lk po ws todo dn tr q,
      nth_error ws i = Some (mkWorker (Calling tr) todo dn) -> lock_of q = None ->
      tstep i (mkThreads ct lk po ws) (mkThreads ct lk po (put ws i (mkWorker (Calling (tr ++ [(q, unlocked q)])) todo dn)))
  | AskPoisoned : forall ct lk po ws todo dn tr q l,
      nth_error ws i = Some (mkWorker (Calling tr) todo dn) -> lock_of q = Some l -> lk l = None -> po l = true ->
      tstep i (mkThreads ct lk po ws) (mkThreads ct lk po (put ws i (mkWorker (Calling (tr ++ [(q, refusal q)])) todo dn)))
  | Ask : forall ct lk po ws todo dn tr q l,
      nth_error ws i = Some (mkWorker (Calling tr) todo dn) -> lock_of q = Some l -> lk l = None -> po l = false ->
      tstep i (mkThreads ct lk po ws)
              (mkThreads ct (set_lock lk l (Some i)) po (put ws i (mkWorker (Holding tr q (work_of q)) todo dn)))
  | Work : forall ct lk po ws todo dn tr q change next,
      nth_error ws i = Some (mkWorker (Holding tr q (Then change next)) todo dn) ->
      tstep i (mkThreads ct lk po ws) (mkThreads (change ct) lk po (put ws i (mkWorker (Holding tr q (next ct)) todo dn)))
  | Leave : forall ct lk po ws todo dn tr q a l,
      nth_error ws i = Some (mkWorker (Holding tr q (Done a)) todo dn) -> lock_of q = Some l ->
      tstep i (mkThreads ct lk po ws)
              (mkThreads ct (set_lock lk l None) (if is_panic a then set_poison po l true else po)
                         (put ws i (mkWorker (Calling (tr ++ [(q, a)])) todo dn)))
  | Return_ : forall ct lk po ws c rest dn tr r,
      nth_error ws i = Some (mkWorker (Calling tr) (c :: rest) dn) -> determined tr c r ->
      tstep i (mkThreads ct lk po ws) (mkThreads ct lk po (put ws i (mkWorker Between rest (dn ++ [(c, r)])))).

  (** Threads that start with empty caches.  builtin_entity_parser.rs:72,
      custom_entity_parser.rs:163-184. *)
  Definition tstart (programs : list (list method)) : Threads :=
    mkThreads (mkContents [] [] (fun _ => None)) (fun _ => None) (fun _ => false) (map (fun p => mkWorker Between p []) programs).
  (** No counterpart in the code. *)
  Inductive reach (programs : list (list method)) : Threads -> Prop :=
  | reach_start : reach programs (tstart programs)
  | reach_step : forall s s' i, reach programs s -> tstep i s s' -> reach programs s'.
End Parts.
