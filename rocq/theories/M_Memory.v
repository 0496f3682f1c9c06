(** Model of the memory that the C interface hands to its callers: ffi/src/lib.rs. *)
From Coq Require Import String List NArith ZArith Bool Arith.
From Verif Require Import Base F32 M_Types M_Engine M_Filler M_Load M_Ffi.
Import ListNotations.
Local Open Scope nat_scope.

(** The kinds of objects that callers have to destroy, besides clients.  The types of
    lib.rs:206-233. *)
Inductive kind := KString | KResult | KSlots | KIntents.
(** Helper, no counterpart in the code. *)
Definition kind_eqb (a b : kind) : bool :=
  match a, b with
  | KString, KString | KResult, KResult | KSlots, KSlots | KIntents, KIntents => true
  | _, _ => false
  end.

(** The clients and the last error, and the other allocated objects with their contents.
    The heap: no counterpart in the code. *)
Record Memory := mkMem { mem_world : World; mem_objects : list (nat * (kind * output)) }.

(** The functions of M_Ffi; [snips_nlu_engine_get_last_error] (generated, lib.rs:29); and
    [snips_nlu_engine_destroy_string], [..._destroy_result], [..._destroy_slots] and
    [..._destroy_intent_classifier_results] (lib.rs:206-233). *)
Inductive request :=
| Call (c : call)
| GetLastError
| Destroy (k : kind) (p : cptr).
(** The exit code, and what is written to the output pointer ([None]: nothing).
    lib.rs:31-240 *)
Inductive answer := AOk (written : cptr) | AKo | APanic | AUndefined.

(** What kind of object a call allocates: the types of [result] and [result_json] in
    lib.rs:48-204, and of [version] in lib.rs:235-240. *)
Definition allocates (c : call) : option kind :=
  match c with
  | RunParse _ _ _ _ json | RunParseWithAlternatives _ _ _ _ _ _ json => Some (if json then KString else KResult)
  | RunGetSlots _ _ _ json | RunGetSlotsWithAlternatives _ _ _ _ json => Some (if json then KString else KSlots)
  | RunGetIntents _ _ json => Some (if json then KString else KIntents)
  | GetModelVersion => Some KString
  | CreateFromDir _ | CreateFromZip _ | DestroyClient _ => None
  end.

Section Memory.
  Context (x : Ext) (to_json : output -> outcome str) (to_c : output -> outcome output).
  (** The message of the last error, of ffi_utils (external). *)
  Context (message : option error -> str).

  Definition allocate (w : World) (l : list (nat * (kind * output))) (e : Env) (k : kind) (o : output) : Memory * answer :=
    (mkMem w ((env_address e, (k, o)) :: l), AOk (Some (env_address e))).

  (** lib.rs:31-204 and 235-240: [into_raw_pointer] of the result (lib.rs:300-302, 320-322,
      336-338) and [point_to_string] (ffi_utils). *)
  Definition mcall (m : Memory) (e : Env) (c : call) : Memory * answer :=
    let (w, r) := step x to_json to_c (mem_world m) e c in
    match r with
    | ROk o => match allocates c, o with
               | Some k, _ => allocate w (mem_objects m) e k o
               | None, OutClient a => (mkMem w (mem_objects m), AOk (Some a))
               | None, _ => (mkMem w (mem_objects m), AOk None)
               end
    | RKo => (mkMem w (mem_objects m), AKo)
    | RPanic => (mkMem w (mem_objects m), APanic)
    | RUndefined => (mkMem w (mem_objects m), AUndefined)
    end.

  (** [generate_error_handling!] of ffi_utils (external): the message of the last error as a
      new string.  Simplification: the error stays recorded. *)
  Definition get_last_error (m : Memory) (e : Env) : Memory * answer :=
    match point_to_string (message (w_error (mem_world m))) with
    | Ok o => allocate (mem_world m) (mem_objects m) e KString o
    | Err er => (mkMem (mkWorld (w_clients (mem_world m)) (Some er)) (mem_objects m), AKo)
    | Panic => (m, APanic)
    end.

  (** lib.rs:206-233: [from_raw_pointer] refuses null pointers; a pointer to no object of
      that kind is undefined. *)
  Definition destroy (m : Memory) (k : kind) (p : cptr) : Memory * answer :=
    match p with
    | None => (mkMem (mkWorld (w_clients (mem_world m)) (Some EOther)) (mem_objects m), AKo)
    | Some a =>
        match hget Nat.eqb a (mem_objects m) with
        | Some (k', _) =>
            if kind_eqb k k'
            then (mkMem (mem_world m) (filter (fun ao => negb (Nat.eqb (fst ao) a)) (mem_objects m)), AOk None)
            else (m, AUndefined)
        | None => (m, AUndefined)
        end
    end.

  (** Any function of lib.rs:29-240. *)
  Definition mstep (m : Memory) (e : Env) (r : request) : Memory * answer :=
    match r with
    | Call c => mcall m e c
    | GetLastError => get_last_error m e
    | Destroy k p => destroy m k p
    end.

  (** The callers of the library: no counterpart in the code. *)
  Fixpoint mrun (m : Memory) (l : list (Env * request)) : Memory * list answer :=
    match l with
    | [] => (m, [])
    | (e, r) :: t => let (m1, a) := mstep m e r in let (m2, s) := mrun m1 t in (m2, a :: s)
    end.
End Memory.
