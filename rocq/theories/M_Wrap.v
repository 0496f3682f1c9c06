(** What the wrappers of the C interface share: calls that touch memory, exceptions. *)
From Coq Require Import String List NArith ZArith Bool Arith.
From Verif Require Import Base F32 M_Types M_Engine M_Filler M_Load M_Ffi M_Memory.
Import ListNotations.
Local Open Scope nat_scope.

(** How an operation ends.  [Raised (Some s)]: an exception with the message [s] of the
    library; [Raised None]: another exception.  [Crashed]: the process is aborted (a panic
    that reaches C).  [Broken]: invalid memory is used, anything can happen.  No
    counterpart in the code. *)
Inductive ending A := Value (a : A) | Raised (why : option str) | Crashed | Broken.
Arguments Value {A} a.
Arguments Raised {A} why.
Arguments Crashed {A}.
Arguments Broken {A}.

(** Operations of the wrappers: no counterpart in the code. *)
Definition prog A := Memory -> Memory * ending A.
(** Operations of the wrappers: no counterpart in the code. *)
Definition ret {A} (a : A) : prog A := fun m => (m, Value a).
(** Operations of the wrappers: no counterpart in the code. *)
Definition raise {A} (why : option str) : prog A := fun m => (m, Raised why).
(** Operations of the wrappers: no counterpart in the code. *)
Definition pbind {A B} (p : prog A) (k : A -> prog B) : prog B :=
  fun m => match p m with
           | (m1, Value a) => k a m1
           | (m1, Raised w) => (m1, Raised w)
           | (m1, Crashed) => (m1, Crashed)
           | (m1, Broken) => (m1, Broken)
           end.
Notation "'let%' x := p 'in' k" := (pbind p (fun x => k)) (at level 200, x pattern, p at level 100, k at level 200).
(** [try { body } finally { last }].  nlu_engine.py and utils.py:11-16; NluEngine.kt:96-197. *)
Definition finally {A} (body : prog A) (last : prog unit) : prog A :=
  fun m => match body m with
           | (m1, Value a) => (let% _ := last in ret a) m1
           | (m1, Raised w) => (let% _ := last in raise w) m1
           | (m1, Crashed) => (m1, Crashed)
           | (m1, Broken) => (m1, Broken)
           end.
(** [last] is run when [body] raises.  NluEngine.kt:96-197 *)
Definition on_raise {A} (body : prog A) (last : prog unit) : prog A :=
  fun m => match body m with
           | (m1, Raised w) => (let% _ := last in raise w) m1
           | r => r
           end.

(** The bytes before the first zero: what C sees of a string.  No counterpart in the code. *)
Fixpoint before_zero (l : list N) : list N :=
  match l with
  | [] => []
  | c :: r => if (c =? 0)%N then [] else c :: before_zero r
  end.
(** No counterpart in the code. *)
Definition c_string (b : list byte) : cstr := CBytes (before_zero b).

(** What the calls of an operation meet: the [i]-th one, in a given memory.  No
    counterpart in the code. *)
Definition meets := nat -> Memory -> Env.

Section Wrap.
  Context (x : Ext) (to_json : output -> outcome str) (to_c : output -> outcome output) (message : option error -> str).

  (** A call of the C interface with an output variable that is null: whether the exit code
      is zero, and the variable after the call.  nlu_engine.py:37-158,
      NluEngine.kt:70-197, NluEngine.swift:389-490. *)
  Definition ffi (e : Memory -> Env) (r : request) : prog (bool * cptr) :=
    fun m => let (m1, a) := mstep x to_json to_c message m (e m) r in
             match a with
             | AOk p => (m1, Value (true, p))
             | AKo => (m1, Value (false, None))
             | APanic => (m1, Crashed)
             | AUndefined => (m1, Broken)
             end.
  (** A call whose exit code is ignored.  NluEngine.kt:92-94, nlu_engine.py:160-162,
      NluEngine.swift:408-413. *)
  Definition ffi_ (e : Memory -> Env) (r : request) : prog unit := let% _ := ffi e r in ret tt.

  (** The contents of an object of kind [k].  NluEngine.kt:96-197, NluEngine.swift:424-490. *)
  Definition read (k : kind) (p : cptr) : prog output :=
    fun m => match p with
             | None => (m, Broken)
             | Some a => match hget Nat.eqb a (mem_objects m) with
                         | Some (k', o) => if kind_eqb k k' then (m, Value o) else (m, Broken)
                         | None => (m, Broken)
                         end
             end.
  (** The text of a C string.  nlu_engine.py:37-158, NluEngine.kt:70-197. *)
  Definition read_text (p : cptr) : prog str :=
    let% o := read KString p in
    match o with OutText s => ret s | _ => fun m => (m, Broken) end.
End Wrap.
