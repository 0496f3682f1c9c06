(** Model of loadings and injections made at the same time by several threads or processes that
    share one file tree: src/injection/injection.rs, src/nlu_engine.rs. *)
From Coq Require Import String List NArith ZArith Bool Arith.
From Verif Require Import Base F32 M_Types M_Engine M_Feat M_Prob M_Features M_Filler M_Crf M_Res M_Fs M_Json M_Load M_Inject.
Import ListNotations.
Local Open Scope nat_scope.

(** One call: [NluInjector::inject] (injection.rs:89-169) with its iteration orders, or
    [SnipsNluEngine::from_path] (nlu_engine.rs:34-53). *)
Inductive task := TInject (o1 o2 o3 : HashOrder) (ij : Injector) | TLoad (p : path).

(** What a thread may do next: its next step, or reading some of its files again at a later time. *)
Inductive action := Go | Look (names : list (list str)).

(** What has been read of each file when the files [names] are read in the tree [f].  No
    counterpart in the code: a call reads its files one after the other, while the tree changes,
    which gives every file some time of reading between the begin and the end of the reading.
    Simplified: a file that a call reads twice (nlu_engine.json and the metadata files) is seen
    the same both times; C92_elsewhere: no call changes these. *)
Definition look (names : list (list str)) (f seen : fs) : fs :=
  fun q => if existsb (names_eqb q) names then f q else seen q.

Section Overlap.
  Context (x : Ext) (shape : str -> str) (ngrams : list str -> nat -> list str) (mx : Math) (L : Loader)
          (file_orders : path -> orders) (unit_orders : path -> nat -> HashOrder) (G : Gaz).

  (** How far a call is. *)
  Inductive stage :=
  | Waiting                                    (* not begun *)
  | Reading (seen : fs)                        (* nlu_engine.rs:34-53; injection.rs:93-137 *)
  | Working (dirs : list (str * path)) (todo : list (str * list GValue))      (* injection.rs:139-142 *)
  | Opening (d : path) (vs : list GValue) (dirs : list (str * path)) (todo : list (str * list GValue))
            (seen : fs)                        (* injection.rs:143-152 *)
  | Removing (rest : list op) (r : outcome unit) (d : path) (g : gz_parser G)
             (dirs : list (str * path)) (todo : list (str * list GValue))     (* injection.rs:154-158 *)
  | Writing (rest : list op) (r : outcome unit)
            (dirs : list (str * path)) (todo : list (str * list GValue))      (* injection.rs:160-164 *)
  | Injected (r : outcome unit)                (* injection.rs:168 *)
  | Loaded (r : outcome Engine).               (* nlu_engine.rs:48-52 *)

  (** Whether the values replace those injected before.  injection.rs:79-82. *)
  Definition task_vanilla (t : task) : bool := match t with TInject _ _ _ ij => ij_vanilla ij | TLoad _ => false end.

  (** The next step of a call: injection.rs:89-169 cut at each change of the tree; nlu_engine.rs:34-53.
      Simplified: the changes that a removal or a writing makes are those for the tree in which
      it begins; this is exact as long as no other call changes the same directory. *)
  Definition go (t : task) (f : fs) (s : stage) : fs * stage :=
    match s with
    | Waiting => (f, Reading f)
    | Reading seen =>
        (f, match t with
            | TLoad p => Loaded (from_path x shape ngrams mx L file_orders unit_orders seen p)
            | TInject o1 o2 o3 ij =>
                match prepare x L file_orders unit_orders G o1 o2 ij seen with
                | Ok (dirs, values) => Working dirs (reorder o3 values)
                | Err e => Injected (Err e)
                | Panic => Injected Panic
                end
            end)
    | Working dirs [] => (f, Injected (Ok tt))
    | Working dirs ((e, vs) :: todo) =>
        (f, match hget str_eqb e dirs with Some d => Opening d vs dirs todo f | None => Injected Panic end)
    | Opening d vs dirs todo seen =>
        (f, match gz_load G seen d with
            | Ok g =>
                match gz_inject G g vs true (task_vanilla t) with
                | Ok g' => Removing (fst (gz_remove G f d)) (snd (gz_remove G f d)) d g' dirs todo
                | Err _ => Injected (Err EOther)
                | Panic => Injected Panic
                end
            | Err _ => Injected (Err EOther)
            | Panic => Injected Panic
            end)
    | Removing (o :: rest) r d g dirs todo => (apply_op f o, Removing rest r d g dirs todo)
    | Removing [] r d g dirs todo =>
        (f, match r with
            | Ok _ => Writing (fst (gz_dump G f d g)) (snd (gz_dump G f d g)) dirs todo
            | _ => Injected (internal r)
            end)
    | Writing (o :: rest) r dirs todo => (apply_op f o, Writing rest r dirs todo)
    | Writing [] r dirs todo =>
        (f, match internal r with Ok _ => Working dirs todo | r' => Injected r' end)
    | Injected _ | Loaded _ => (f, s)
    end.

  (** One action of a call.  No counterpart in the code: see [look] and [go]. *)
  Definition act (t : task) (a : action) (f : fs) (s : stage) : fs * stage :=
    match a with
    | Go => go t f s
    | Look names =>
        (f, match s with
            | Reading seen => Reading (look names f seen)
            | Opening d vs dirs todo seen => Opening d vs dirs todo (look names f seen)
            | _ => s
            end)
    end.

  (** The tree and the calls.  No counterpart in the code: threads and processes of the user. *)
  Definition world : Type := fs * list (task * stage).
  (** Helper, no counterpart in the code. *)
  Fixpoint set_nth {A} (i : nat) (a : A) (l : list A) : list A :=
    match l, i with
    | [], _ => []
    | _ :: l', 0 => a :: l'
    | b :: l', S i' => b :: set_nth i' a l'
    end.
  (** The scheduler (external) lets call [i] act. *)
  Definition turn (w : world) (ia : nat * action) : world :=
    match nth_error (snd w) (fst ia) with
    | Some (t, s) => let (f, s') := act t (snd ia) (fst w) s in (f, set_nth (fst ia) (t, s') (snd w))
    | None => w
    end.
  (** A whole schedule (external). *)
  Definition run (w : world) (sched : list (nat * action)) : world := fold_left turn sched w.
End Overlap.
